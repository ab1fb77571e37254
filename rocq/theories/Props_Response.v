(** How the history responds to each parameter (C91). *)

From Coq Require Import Reals Lra List.
From Verif Require Import Model_Num Model_Kernels Spec_Kernels RealAux Proofs_Kernels Proofs_Formation.
Local Open Scope R_scope.

(** ** C91 *)

Lemma steeper_curve p q t0 t : legal p -> legal q -> logm0 p = logm0 q -> t_peak p = t_peak q -> 0 < t0 -> 0 < t ->
  (forall x, idx (logtc p) (early_index p) (late_index p) x < idx (logtc q) (early_index q) (late_index q) x) ->
  (Rmin t (t_peak p) < t0 -> logmh_at_t_obs q t (log10 t0) < logmh_at_t_obs p t (log10 t0)) /\
  (Rmin t (t_peak p) = t0 -> logmh_at_t_obs q t (log10 t0) = logmh_at_t_obs p t (log10 t0)) /\
  (t0 < Rmin t (t_peak p) -> logmh_at_t_obs p t (log10 t0) < logmh_at_t_obs q t (log10 t0)).
Proof.
  intros Hp Hq EM ET H0 P I. rewrite !curve_at by auto. rewrite <- ET.
  assert (PM : 0 < Rmin t (t_peak p)) by (unfold legal in Hp; apply Rmin_glb_lt; lra).
  set (u := Rmin t (t_peak p)) in *. unfold curve, plaw. rewrite <- EM. specialize (I (log10 u)).
  split; [|split].
  - intros L. assert (log10 u < log10 t0) by (apply log10_lt; lra). nra.
  - intros ->. ring.
  - intros L. assert (log10 t0 < log10 u) by (apply log10_lt; lra). nra.
Qed.

(** Of two halos that differ in the early index only, the one with the larger index has the
    lower mass at all times before today, the same mass today and, if growing on, the
    higher mass afterwards. *)
Theorem C91_early_index : forall m tc e e' l tp t0 t,
  legal (mkParams m tc e l tp) -> legal (mkParams m tc e' l tp) -> e < e' -> 0 < t0 -> 0 < t ->
  (Rmin t tp < t0 -> logmh_at_t_obs (mkParams m tc e' l tp) t (log10 t0) < logmh_at_t_obs (mkParams m tc e l tp) t (log10 t0)) /\
  (Rmin t tp = t0 -> logmh_at_t_obs (mkParams m tc e' l tp) t (log10 t0) = logmh_at_t_obs (mkParams m tc e l tp) t (log10 t0)) /\
  (t0 < Rmin t tp -> logmh_at_t_obs (mkParams m tc e l tp) t (log10 t0) < logmh_at_t_obs (mkParams m tc e' l tp) t (log10 t0)).
Proof.
  intros m tc e e' l tp t0 t H H' L H0 P. apply (steeper_curve (mkParams m tc e l tp)); auto.
  intros x. cbn. unfold idx. pose proof (logistic_bounds (35 / 10 * (x - tc))). nra.
Qed.
Print Assumptions C91_early_index.

(** Likewise for the late index *)
Theorem C91_late_index : forall m tc e l l' tp t0 t,
  legal (mkParams m tc e l tp) -> legal (mkParams m tc e l' tp) -> l < l' -> 0 < t0 -> 0 < t ->
  (Rmin t tp < t0 -> logmh_at_t_obs (mkParams m tc e l' tp) t (log10 t0) < logmh_at_t_obs (mkParams m tc e l tp) t (log10 t0)) /\
  (Rmin t tp = t0 -> logmh_at_t_obs (mkParams m tc e l' tp) t (log10 t0) = logmh_at_t_obs (mkParams m tc e l tp) t (log10 t0)) /\
  (t0 < Rmin t tp -> logmh_at_t_obs (mkParams m tc e l tp) t (log10 t0) < logmh_at_t_obs (mkParams m tc e l' tp) t (log10 t0)).
Proof.
  intros m tc e l l' tp t0 t H H' L H0 P. apply (steeper_curve (mkParams m tc e l tp)); auto.
  intros x. cbn. unfold idx. pose proof (logistic_bounds (35 / 10 * (x - tc))). nra.
Qed.
Print Assumptions C91_late_index.

(** and the critical time. *)
Theorem C91_critical_time : forall m tc tc' e l tp t0 t,
  legal (mkParams m tc e l tp) -> legal (mkParams m tc' e l tp) -> tc < tc' -> 0 < t0 -> 0 < t ->
  (Rmin t tp < t0 -> logmh_at_t_obs (mkParams m tc' e l tp) t (log10 t0) < logmh_at_t_obs (mkParams m tc e l tp) t (log10 t0)) /\
  (Rmin t tp = t0 -> logmh_at_t_obs (mkParams m tc' e l tp) t (log10 t0) = logmh_at_t_obs (mkParams m tc e l tp) t (log10 t0)) /\
  (t0 < Rmin t tp -> logmh_at_t_obs (mkParams m tc e l tp) t (log10 t0) < logmh_at_t_obs (mkParams m tc' e l tp) t (log10 t0)).
Proof.
  intros m tc tc' e l tp t0 t H H' L H0 P. apply (steeper_curve (mkParams m tc e l tp)); auto.
  intros x. cbn. unfold idx. unfold legal in H. cbn in H.
  pose proof (logistic_lt (35 / 10 * (x - tc')) (35 / 10 * (x - tc)) ltac:(lra)). nra.
Qed.
Print Assumptions C91_critical_time.

(** Of two halos that differ in the peak time only, and peak by today, the histories agree
    up to the earlier peak; from then on the one that peaks later is the more massive. *)
Theorem C91_peak_time : forall m tc e l tp tp' t0 t,
  legal (mkParams m tc e l tp) -> legal (mkParams m tc e l tp') -> tp < tp' -> 0 < t0 -> tp' <= t0 -> 0 < t ->
  (t <= tp -> logmh_at_t_obs (mkParams m tc e l tp') t (log10 t0) = logmh_at_t_obs (mkParams m tc e l tp) t (log10 t0)) /\
  (tp < t -> logmh_at_t_obs (mkParams m tc e l tp) t (log10 t0) < logmh_at_t_obs (mkParams m tc e l tp') t (log10 t0)).
Proof.
  intros m tc e l tp tp' t0 t H H' L H0 L0 P. rewrite !curve_at by auto. cbn [t_peak]. split.
  - intros Lt. now rewrite !Rmin_left by lra.
  - intros Lt. rewrite (Rmin_right t tp) by lra.
    change (curve (mkParams m tc e l tp) t0 (log10 tp)) with (curve (mkParams m tc e l tp') t0 (log10 tp)).
    assert (B : tp < Rmin t tp') by (apply Rmin_glb_lt; lra). pose proof (Rmin_r t tp').
    unfold legal in H. cbn in H.
    apply curve_lt; [exact H'|apply log10_lt; lra|apply log10_le; lra].
Qed.
Print Assumptions C91_peak_time.

Example C91_example :
  logmh_at_t_obs (mkParams 12 (5 / 100) 3 (2 / 10) 14) 2 (log10 13) <
  logmh_at_t_obs (mkParams 12 (5 / 100) (26 / 10) (2 / 10) 14) 2 (log10 13) /\
  logmh_at_t_obs (mkParams 12 (5 / 100) (26 / 10) (2 / 10) 5) 8 (log10 13) <
  logmh_at_t_obs (mkParams 12 (5 / 100) (26 / 10) (2 / 10) 7) 8 (log10 13).
Proof.
  split.
  - apply (proj1 (C91_early_index 12 (5 / 100) (26 / 10) 3 (2 / 10) 14 13 2 ltac:(unfold legal; cbn; lra)
      ltac:(unfold legal; cbn; lra) ltac:(lra) ltac:(lra) ltac:(lra))). rewrite Rmin_left; lra.
  - apply (proj2 (C91_peak_time 12 (5 / 100) (26 / 10) (2 / 10) 5 7 13 8 ltac:(unfold legal; cbn; lra)
      ltac:(unfold legal; cbn; lra) ltac:(lra) ltac:(lra) ltac:(lra) ltac:(lra))). lra.
Qed.
