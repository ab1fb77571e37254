(** Formation times (C89). *)

From Coq Require Import Reals Lra List.
From Verif Require Import Model_Num Model_Kernels Spec_Kernels Spec_Formation RealAux Proofs_Kernels Proofs_Formation.
Local Open Scope R_scope.

(** ** C89 *)

(** Every fraction of today's mass was reached at exactly one time up to today, which lies
    before the peak. *)
Theorem C89_formation_time : forall p t0 f, legal p -> 0 < t0 -> 0 < f < 1 ->
  exists t, 0 < t < t0 /\ t < t_peak p /\ has_fraction p t0 f t /\
    forall s, 0 < s <= t0 -> has_fraction p t0 f s -> s = t.
Proof.
  intros p t0 f Hp H0 Hf. destruct (formation_exists p t0 f Hp H0 Hf) as (t & T1 & T2 & T3 & T4).
  exists t. split; [lra|]. split; [exact T3|]. split; [exact T4|]. intros s Hs Fs.
  apply (formation_unique p t0 f s t); auto. lra.
Qed.
Print Assumptions C89_formation_time.

(** Larger fractions were reached later. *)
Theorem C89_order : forall p t0 f g t s, legal p -> 0 < t0 -> 0 < f -> f < g -> g < 1 ->
  0 < t <= t0 -> 0 < s <= t0 -> has_fraction p t0 f t -> has_fraction p t0 g s -> t < s.
Proof. exact formation_order. Qed.
Print Assumptions C89_order.

(** Halos that differ in today's mass only have the same formation times. *)
Theorem C89_mass_immaterial : forall m m' tc e l tp t0 f t,
  legal (mkParams m tc e l tp) -> legal (mkParams m' tc e l tp) -> 0 < t0 -> 0 < f -> 0 < t ->
  has_fraction (mkParams m tc e l tp) t0 f t <-> has_fraction (mkParams m' tc e l tp) t0 f t.
Proof.
  intros m m' tc e l tp t0 f t H H' H0 Hf Ht. rewrite !fraction_log by exact Hf.
  rewrite !curve_at by auto. unfold curve, plaw. cbn [logm0 logtc early_index late_index t_peak]. lra.
Qed.
Print Assumptions C89_mass_immaterial.

(** Of two halos that differ in the early index only, the one with the larger index reaches
    every fraction later. *)
Theorem C89_early_index : forall m tc e e' l tp t0 f t s,
  legal (mkParams m tc e l tp) -> legal (mkParams m tc e' l tp) -> e < e' -> 0 < t0 -> 0 < f < 1 ->
  0 < t <= t0 -> 0 < s <= t0 ->
  has_fraction (mkParams m tc e l tp) t0 f t -> has_fraction (mkParams m tc e' l tp) t0 f s -> t < s.
Proof. exact early_later. Qed.
Print Assumptions C89_early_index.

(** Likewise, for halos still growing today, the late index *)
Theorem C89_late_index : forall m tc e l l' tp t0 f t s,
  legal (mkParams m tc e l tp) -> legal (mkParams m tc e l' tp) -> l < l' -> 0 < t0 <= tp -> 0 < f < 1 ->
  0 < t <= t0 -> 0 < s <= t0 ->
  has_fraction (mkParams m tc e l tp) t0 f t -> has_fraction (mkParams m tc e l' tp) t0 f s -> t < s.
Proof.
  intros m tc e l l' tp t0 f t s H H' L H0 Hf Ht Hs. apply steeper_later; cbn; auto; try lra.
  intros x. unfold idx. pose proof (logistic_bounds (35 / 10 * (x - tc))). nra.
Qed.
Print Assumptions C89_late_index.

(** and the critical time. *)
Theorem C89_critical_time : forall m tc tc' e l tp t0 f t s,
  legal (mkParams m tc e l tp) -> legal (mkParams m tc' e l tp) -> tc < tc' -> 0 < t0 <= tp -> 0 < f < 1 ->
  0 < t <= t0 -> 0 < s <= t0 ->
  has_fraction (mkParams m tc e l tp) t0 f t -> has_fraction (mkParams m tc' e l tp) t0 f s -> t < s.
Proof.
  intros m tc tc' e l tp t0 f t s H H' L H0 Hf Ht Hs. apply steeper_later; cbn; auto; try lra.
  intros x. unfold idx. unfold legal in H. cbn in H.
  pose proof (logistic_lt (35 / 10 * (x - tc')) (35 / 10 * (x - tc)) ltac:(lra)). nra.
Qed.
Print Assumptions C89_critical_time.

(** A halo that peaks later reaches every fraction of its mass of today later, unless both
    still grow today. *)
Theorem C89_peak_time : forall m tc e l tp tp' t0 f t s,
  legal (mkParams m tc e l tp) -> legal (mkParams m tc e l tp') -> tp < tp' -> tp < t0 -> 0 < t0 -> 0 < f < 1 ->
  0 < t <= t0 -> 0 < s <= t0 ->
  has_fraction (mkParams m tc e l tp) t0 f t -> has_fraction (mkParams m tc e l tp') t0 f s -> t < s.
Proof. exact peak_later. Qed.
Print Assumptions C89_peak_time.

(** For halos that have stopped growing the claims on the late index and the critical time are false: a larger late index, or a
    later critical time, can make a halo form earlier. *)
Theorem C89_late_index_stopped_refuted : exists m tc e l l' tp t0 f t s,
  legal (mkParams m tc e l tp) /\ legal (mkParams m tc e l' tp) /\ l < l' /\ 0 < tp < t0 /\ 0 < f < 1 /\
  0 < t <= t0 /\ 0 < s <= t0 /\
  has_fraction (mkParams m tc e l tp) t0 f t /\ has_fraction (mkParams m tc e l' tp) t0 f s /\ s < t.
Proof.
  assert (H : legal (mkParams 12 0 3 1 1)) by (unfold legal; cbn; lra).
  assert (H' : legal (mkParams 12 0 3 2 1)) by (unfold legal; cbn; lra).
  pose proof logistic_small as S. pose proof (logistic_bounds (35 / 10 * (-1 - 0))) as S'.
  destruct (earlier_if_ahead (mkParams 12 0 3 1 1) (mkParams 12 0 3 2 1) 10 (1 / 10) H H' ltac:(lra) ltac:(lra) ltac:(lra) ltac:(cbn; lra))
    as (f & s & F & S1 & A & B & C).
  - rewrite !at_tenth, !at_ten by assumption. replace (35 / 10 * (0 - 0)) with 0 by ring. rewrite logistic_0. lra.
  - rewrite at_tenth, at_ten by assumption. replace (35 / 10 * (0 - 0)) with 0 by ring. rewrite logistic_0. lra.
  - exists 12, 0, 3, 1, 2, 1, 10, f, (1 / 10), s.
    split; [exact H|]. split; [exact H'|]. split; [lra|]. split; [lra|]. split; [exact F|]. split; [lra|]. auto.
Qed.
Print Assumptions C89_late_index_stopped_refuted.

Theorem C89_critical_time_stopped_refuted : exists m tc tc' e l tp t0 f t s,
  legal (mkParams m tc e l tp) /\ legal (mkParams m tc' e l tp) /\ tc < tc' /\ 0 < tp < t0 /\ 0 < f < 1 /\
  0 < t <= t0 /\ 0 < s <= t0 /\
  has_fraction (mkParams m tc e l tp) t0 f t /\ has_fraction (mkParams m tc' e l tp) t0 f s /\ s < t.
Proof.
  assert (H : legal (mkParams 12 0 3 1 1)) by (unfold legal; cbn; lra).
  assert (H' : legal (mkParams 12 (9 / 10) 3 1 1)) by (unfold legal; cbn; lra).
  pose proof logistic_small as S. pose proof (logistic_bounds (35 / 10 * (-1 - 0))) as S'.
  pose proof logistic_small' as T. pose proof (logistic_bounds (35 / 10 * (0 - 9 / 10))) as T'.
  pose proof (logistic_bounds (35 / 10 * (-1 - 9 / 10))) as U.
  pose proof (logistic_lt (35 / 10 * (-1 - 9 / 10)) (35 / 10 * (0 - 9 / 10)) ltac:(lra)) as V.
  destruct (earlier_if_ahead (mkParams 12 0 3 1 1) (mkParams 12 (9 / 10) 3 1 1) 10 (1 / 10) H H' ltac:(lra) ltac:(lra) ltac:(lra) ltac:(cbn; lra))
    as (f & s & F & S1 & A & B & C).
  - rewrite !at_tenth, !at_ten by assumption. replace (35 / 10 * (0 - 0)) with 0 by ring. rewrite logistic_0. lra.
  - rewrite at_tenth, at_ten by assumption. lra.
  - exists 12, 0, (9 / 10), 3, 1, 1, 10, f, (1 / 10), s.
    split; [exact H|]. split; [exact H'|]. split; [lra|]. split; [lra|]. split; [exact F|]. split; [lra|]. auto.
Qed.
Print Assumptions C89_critical_time_stopped_refuted.

(** The half-mass times of two halos that differ in the early index. *)
Example C89_example :
  exists t s, 0 < t <= 13 /\ 0 < s <= 13 /\ t < s /\
    has_fraction (mkParams 12 (5 / 100) (26 / 10) (2 / 10) 14) 13 (1 / 2) t /\
    has_fraction (mkParams 12 (5 / 100) (3) (2 / 10) 14) 13 (1 / 2) s.
Proof.
  assert (H : legal (mkParams 12 (5 / 100) (26 / 10) (2 / 10) 14)) by (unfold legal; cbn; lra).
  assert (H' : legal (mkParams 12 (5 / 100) 3 (2 / 10) 14)) by (unfold legal; cbn; lra).
  destruct (C89_formation_time _ 13 (1 / 2) H ltac:(lra) ltac:(lra)) as (t & T & _ & Ft & _).
  destruct (C89_formation_time _ 13 (1 / 2) H' ltac:(lra) ltac:(lra)) as (s & S & _ & Fs & _).
  exists t, s. split; [lra|]. split; [lra|]. split; [|auto].
  apply (C89_early_index 12 (5 / 100) (26 / 10) 3 (2 / 10) 14 13 (1 / 2) t s); auto; lra.
Qed.

(** The half-mass times of a halo that stopped at 6 Gyr and one that stopped at 9. *)
Example C89_example_peak :
  exists t s, 0 < t <= 13 /\ 0 < s <= 13 /\ t < s /\
    has_fraction (mkParams 12 (5 / 100) (26 / 10) (2 / 10) 6) 13 (1 / 2) t /\
    has_fraction (mkParams 12 (5 / 100) (26 / 10) (2 / 10) 9) 13 (1 / 2) s.
Proof.
  assert (H : legal (mkParams 12 (5 / 100) (26 / 10) (2 / 10) 6)) by (unfold legal; cbn; lra).
  assert (H' : legal (mkParams 12 (5 / 100) (26 / 10) (2 / 10) 9)) by (unfold legal; cbn; lra).
  destruct (C89_formation_time _ 13 (1 / 2) H ltac:(lra) ltac:(lra)) as (t & T & _ & Ft & _).
  destruct (C89_formation_time _ 13 (1 / 2) H' ltac:(lra) ltac:(lra)) as (s & S & _ & Fs & _).
  exists t, s. split; [lra|]. split; [lra|]. split; [|auto].
  apply (C89_peak_time 12 (5 / 100) (26 / 10) (2 / 10) 6 9 13 (1 / 2) t s); auto; lra.
Qed.
