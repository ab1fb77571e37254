(** How the history depends on the choice of today (C93). *)

From Coq Require Import Reals Lra List.
From Verif Require Import Model_Num Model_Kernels Spec_Kernels RealAux Proofs_Kernels Proofs_Identify Proofs_Formation Proofs_Today.
Local Open Scope R_scope.

(** ** C93 *)

Lemma idx_between tc e l x : l < e -> l < idx tc e l x < e.
Proof. intros H. unfold idx. pose proof (logistic_bounds (35 / 10 * (x - tc))). nra. Qed.

Lemma idx_falls tc e l x y : l < e -> x < y -> idx tc e l y < idx tc e l x.
Proof.
  intros H L. unfold idx. pose proof (logistic_lt (35 / 10 * (x - tc)) (35 / 10 * (y - tc)) ltac:(lra)). nra.
Qed.

(** With a later today and the same parameters the masses are lower at every time, by an
    amount between the two indices times the logarithm of the ratio of the two ages. *)
Theorem C93_offset : forall p t0 t0' t, legal p -> 0 < t0 -> t0 < t0' -> 0 < t ->
  late_index p * (log10 t0' - log10 t0) < logmh_at_t_obs p t (log10 t0) - logmh_at_t_obs p t (log10 t0') /\
  logmh_at_t_obs p t (log10 t0) - logmh_at_t_obs p t (log10 t0') < early_index p * (log10 t0' - log10 t0).
Proof.
  intros p t0 t0' t H P L Pt. rewrite !curve_at by auto. unfold curve, plaw.
  assert (log10 t0 < log10 t0') by (apply log10_lt; lra).
  assert (late_index p < early_index p) by (unfold legal in H; lra).
  pose proof (idx_between (logtc p) (early_index p) (late_index p) (log10 (Rmin t (t_peak p))) ltac:(assumption)). nra.
Qed.
Print Assumptions C93_offset.

(** No change of [logm0] makes up for it. Up to the peak the history taken with the later
    today gains on the other, whatever the two values of [logm0], by less than the
    difference of the indices times the logarithm of the ratio of the ages. *)
Theorem C93_shape : forall m m' tc e l tp t0 t0' t s,
  legal (mkParams m tc e l tp) -> legal (mkParams m' tc e l tp) ->
  0 < t0 -> t0 < t0' -> 0 < t -> t < s -> s <= tp ->
  let gain := (logmh_at_t_obs (mkParams m' tc e l tp) s (log10 t0') - logmh_at_t_obs (mkParams m' tc e l tp) t (log10 t0'))
            - (logmh_at_t_obs (mkParams m tc e l tp) s (log10 t0) - logmh_at_t_obs (mkParams m tc e l tp) t (log10 t0)) in
  0 < gain < (e - l) * (log10 t0' - log10 t0).
Proof.
  intros m m' tc e l tp t0 t0' t s H H' P L Pt Ls Lp. cbv zeta.
  rewrite !curve_at by (auto; lra). unfold curve, plaw. cbn [logm0 logtc early_index late_index t_peak].
  rewrite !Rmin_left by lra.
  assert (D : log10 t0 < log10 t0') by (apply log10_lt; lra).
  assert (T : log10 t < log10 s) by (apply log10_lt; lra).
  assert (I : l < e) by (unfold legal in H; cbn in H; lra).
  pose proof (idx_falls tc e l _ _ I T). pose proof (idx_between tc e l (log10 t) I). pose proof (idx_between tc e l (log10 s) I).
  set (a := idx tc e l (log10 t)) in *. set (b := idx tc e l (log10 s)) in *.
  assert (0 < (a - b) * (log10 t0' - log10 t0)) by (apply Rmult_lt_0_compat; lra).
  assert ((a - b) * (log10 t0' - log10 t0) < (e - l) * (log10 t0' - log10 t0)) by (apply Rmult_lt_compat_r; lra).
  split; lra.
Qed.
Print Assumptions C93_shape.

(** So two histories of the same shape parameters that agree at two times up to the peak
    were taken with the same today. *)
Theorem C93_today : forall m m' tc e l tp t0 t0' t s,
  legal (mkParams m tc e l tp) -> legal (mkParams m' tc e l tp) ->
  0 < t0 -> 0 < t0' -> 0 < t -> t < s -> s <= tp ->
  logmh_at_t_obs (mkParams m tc e l tp) t (log10 t0) = logmh_at_t_obs (mkParams m' tc e l tp) t (log10 t0') ->
  logmh_at_t_obs (mkParams m tc e l tp) s (log10 t0) = logmh_at_t_obs (mkParams m' tc e l tp) s (log10 t0') ->
  t0 = t0' /\ m = m'.
Proof.
  intros m m' tc e l tp t0 t0' t s H H' P P' Pt Ls Lp E E'.
  assert (Q : t0 = t0').
  { destruct (Rtotal_order t0 t0') as [L|[L|L]]; [exfalso|exact L|exfalso].
    - destruct (C93_shape m m' tc e l tp t0 t0' t s H H' P L Pt Ls Lp). lra.
    - destruct (C93_shape m' m tc e l tp t0' t0 t s H' H P' L Pt Ls Lp). lra. }
  split; [exact Q|]. subst t0'. rewrite !curve_at in E by (auto; lra). unfold curve, plaw in E. cbn in E. lra.
Qed.
Print Assumptions C93_today.

(** Nor do other values of the remaining parameters: halos whose log-masses agree on an
    initial stretch of time, however short, were taken with the same today and have the same
    parameters, the peak time aside. *)
Theorem C93_early_history : forall p q t0 t0' T, legal p -> legal q -> 0 < t0 -> 0 < t0' -> 0 < T ->
  (forall t, 0 < t <= T -> logmh_at_t_obs p t (log10 t0) = logmh_at_t_obs q t (log10 t0')) ->
  t0 = t0' /\ logm0 p = logm0 q /\ logtc p = logtc q /\ early_index p = early_index q /\ late_index p = late_index q.
Proof.
  intros p q t0 t0' T Hp Hq P P' PT H. pose proof (today_determined p q (log10 t0) (log10 t0') T Hp Hq PT H) as E.
  split; [now rewrite <- (pow10_log10 t0 P), <- (pow10_log10 t0' P'), E|].
  rewrite <- E in H. unfold legal in Hp, Hq. apply (shape_determined p q (log10 t0) T); try lra. exact H.
Qed.
Print Assumptions C93_early_history.

(** Likewise for the accretion rates. *)
Theorem C93_early_rates : forall p q t0 t0' T, legal p -> legal q -> 0 < t0 -> 0 < t0' -> 0 < T ->
  (forall t, 0 < t <= T -> rate p (log10 t0) t = rate q (log10 t0') t) ->
  t0 = t0' /\ logm0 p = logm0 q /\ logtc p = logtc q /\ early_index p = early_index q /\ late_index p = late_index q.
Proof.
  intros p q t0 t0' T Hp Hq P P' PT H. apply (C93_early_history p q t0 t0' T); auto.
  exact (rates_determine_mass p q (log10 t0) (log10 t0') T Hp Hq PT H).
Qed.
Print Assumptions C93_early_rates.

(** A halo fitted with today at 13.8 Gyr and evaluated with today at 13.3 Gyr. *)
Example C93_example :
  let p := mkParams 12 (5 / 100) (26 / 10) (2 / 10) 14 in
  legal p /\
  logmh_at_t_obs p 1 (log10 (138 / 10)) < logmh_at_t_obs p 1 (log10 (133 / 10)) /\
  logmh_at_t_obs p 5 (log10 (133 / 10)) - logmh_at_t_obs p 1 (log10 (133 / 10)) <
  logmh_at_t_obs p 5 (log10 (138 / 10)) - logmh_at_t_obs p 1 (log10 (138 / 10)).
Proof.
  cbv zeta. assert (H : legal (mkParams 12 (5 / 100) (26 / 10) (2 / 10) 14)) by (unfold legal; cbn; lra).
  split; [exact H|]. split.
  - destruct (C93_offset _ (133 / 10) (138 / 10) 1 H ltac:(lra) ltac:(lra) ltac:(lra)) as [A _]. cbn [late_index] in A.
    assert (log10 (133 / 10) < log10 (138 / 10)) by (apply log10_lt; lra). lra.
  - destruct (C93_shape 12 12 (5 / 100) (26 / 10) (2 / 10) 14 (133 / 10) (138 / 10) 1 5 H H ltac:(lra) ltac:(lra) ltac:(lra) ltac:(lra) ltac:(lra)).
    lra.
Qed.

(** No legal halo with today at 13.3 Gyr has the early history of this one with today at
    13.8 Gyr. *)
Example C93_example_early : forall q, legal q ->
  ~ (forall t, 0 < t <= 1 / 2 ->
       logmh_at_t_obs (mkParams 12 (5 / 100) (26 / 10) (2 / 10) 14) t (log10 (138 / 10)) = logmh_at_t_obs q t (log10 (133 / 10))).
Proof.
  intros q Hq H.
  destruct (C93_early_history (mkParams 12 (5 / 100) (26 / 10) (2 / 10) 14) q (138 / 10) (133 / 10) (1 / 2)) as [E _];
    [unfold legal; cbn; lra|exact Hq|lra|lra|lra|exact H|lra].
Qed.
