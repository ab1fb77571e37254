(** Proofs about formation times. *)

From Coq Require Import Reals Lra Lia List.
From Coquelicot Require Import Coquelicot.
From Verif Require Import Model_Num Model_Kernels Spec_Kernels Spec_Formation RealAux Proofs_Kernels Proofs_Identify.
Local Open Scope R_scope.

Section Curve.
  Variables x0 m c e l : R.
  Hypothesis Hl : 1 / 10 < l.
  Hypothesis Hle : l < e.
  Hypothesis He : e < 10.

  Lemma plaw_cont : continuity (plaw x0 m c e l).
  Proof.
    intros x. apply derivable_continuous_pt. exists (dplaw x0 c e l x).
    apply is_derive_Reals, is_derive_plaw.
  Qed.

  (** Every value below that at [X] is attained before [X]. *)
  Lemma plaw_hits X y : X <= x0 -> y < plaw x0 m c e l X -> exists x, x < X /\ plaw x0 m c e l x = y.
  Proof.
    intros HX Hy. set (a := Rmin (X - 1) (x0 + 10 * (y - m) - 1)).
    pose proof (Rmin_l (X - 1) (x0 + 10 * (y - m) - 1)) as A1. fold a in A1.
    pose proof (Rmin_r (X - 1) (x0 + 10 * (y - m) - 1)) as A2. fold a in A2.
    assert (La : plaw x0 m c e l a < y).
    { unfold plaw. pose proof (idx_between c e l Hle a) as I. set (i := idx c e l a) in *.
      assert (i * (a - x0) <= 1 / 10 * (a - x0)) by nra. lra. }
    destruct (IVT (fun x => plaw x0 m c e l x - y) a X) as (x & Hx & Ex).
    - apply (continuity_minus (plaw x0 m c e l) (fun _ => y) plaw_cont). apply continuity_const. now intros ? ?.
    - lra.
    - lra.
    - lra.
    - exists x. split; [|lra]. destruct (Req_dec x X) as [->|N]; lra.
  Qed.
End Curve.

Definition X_of (p : DiffmahParams R) (t0 : R) : R := log10 (Rmin t0 (t_peak p)).
Definition curve (p : DiffmahParams R) (t0 x : R) : R :=
  plaw (log10 t0) (logm0 p) (logtc p) (early_index p) (late_index p) x.

Lemma curve_at p t0 t : legal p -> 0 < t -> logmh_at_t_obs p t (log10 t0) = curve p t0 (log10 (Rmin t (t_peak p))).
Proof. intros. unfold logmh_at_t_obs, curve. now rewrite log_mah_kern_min, log_mah_noq_R. Qed.

Lemma X_le p t0 : legal p -> 0 < t0 -> X_of p t0 <= log10 t0.
Proof.
  intros H H0. apply log10_le; [|apply Rmin_l]. unfold legal in H. apply Rmin_glb_lt; lra.
Qed.

Lemma curve_lt p t0 x y : legal p -> x < y -> y <= log10 t0 -> curve p t0 x < curve p t0 y.
Proof. intros H L Hy. unfold legal in H. apply plaw_increasing; lra. Qed.

(** The fraction in logarithms. *)
Lemma fraction_log p t0 f t : 0 < f ->
  has_fraction p t0 f t <-> logmh_at_t_obs p t (log10 t0) = log10 f + logmh_at_t_obs p t0 (log10 t0).
Proof.
  intros Hf. unfold has_fraction, mass.
  change (exp (logmh_at_t_obs p t (log10 t0) * ln 10)) with (pow10 (logmh_at_t_obs p t (log10 t0))).
  change (exp (logmh_at_t_obs p t0 (log10 t0) * ln 10)) with (pow10 (logmh_at_t_obs p t0 (log10 t0))).
  rewrite <- (pow10_log10 f Hf) at 1. rewrite <- pow10_plus. split; intros H; [|now rewrite H].
  rewrite <- (log10_pow10 (logmh_at_t_obs p t (log10 t0))), H. apply log10_pow10.
Qed.

Lemma log10_neg f : 0 < f < 1 -> log10 f < 0.
Proof. intros H. rewrite <- log10_1. apply log10_lt; lra. Qed.

Lemma formation_exists p t0 f : legal p -> 0 < t0 -> 0 < f < 1 ->
  exists t, 0 < t /\ t < t0 /\ t < t_peak p /\ has_fraction p t0 f t.
Proof.
  intros Hp H0 Hf. pose proof (log10_neg f Hf) as Lf.
  pose proof (X_le p t0 Hp H0) as HX.
  destruct (plaw_hits (log10 t0) (logm0 p) (logtc p) (early_index p) (late_index p)
    ltac:(unfold legal in Hp; lra) ltac:(unfold legal in Hp; lra) ltac:(unfold legal in Hp; lra) (X_of p t0)
    (log10 f + curve p t0 (X_of p t0)) HX) as (x & Hx & Ex).
  { fold (curve p t0 (X_of p t0)). lra. }
  assert (Pm : 0 < Rmin t0 (t_peak p)) by (unfold legal in Hp; apply Rmin_glb_lt; lra).
  assert (Ht : pow10 x < Rmin t0 (t_peak p)).
  { rewrite <- (pow10_log10 _ Pm). now apply pow10_lt. }
  pose proof (Rmin_l t0 (t_peak p)). pose proof (Rmin_r t0 (t_peak p)). pose proof (pow10_pos x).
  exists (pow10 x). split; [assumption|]. split; [lra|]. split; [lra|].
  apply fraction_log; [lra|]. rewrite !curve_at by (auto; lra).
  rewrite (Rmin_left (pow10 x)), log10_pow10 by lra. exact Ex.
Qed.

Lemma fraction_before p t0 f t : legal p -> 0 < t0 -> 0 < f < 1 -> 0 < t -> t <= t0 -> has_fraction p t0 f t ->
  t < t_peak p /\ curve p t0 (log10 t) = log10 f + curve p t0 (X_of p t0).
Proof.
  intros Hp H0 Hf P L H. apply fraction_log in H; [|lra]. rewrite !curve_at in H by auto.
  pose proof (log10_neg f Hf) as Lf. fold (X_of p t0) in H.
  destruct (Rlt_or_le t (t_peak p)) as [Q|Q].
  - split; [exact Q|]. now rewrite Rmin_left in H by lra.
  - exfalso. rewrite Rmin_right in H by lra. unfold X_of in H. rewrite Rmin_right in H by lra. lra.
Qed.

(** A larger fraction is reached later; in particular each fraction once only. *)
Lemma formation_order p t0 f g t s : legal p -> 0 < t0 -> 0 < f -> f < g -> g < 1 ->
  0 < t <= t0 -> 0 < s <= t0 -> has_fraction p t0 f t -> has_fraction p t0 g s -> t < s.
Proof.
  intros Hp H0 Hf Hfg Hg Ht Hs Ft Gs.
  destruct (fraction_before p t0 f t Hp H0 ltac:(lra) ltac:(lra) ltac:(lra) Ft) as [_ E].
  destruct (fraction_before p t0 g s Hp H0 ltac:(lra) ltac:(lra) ltac:(lra) Gs) as [_ E'].
  assert (L : log10 f < log10 g) by (apply log10_lt; lra).
  destruct (Rlt_or_le t s) as [Q|Q]; [exact Q|exfalso].
  assert (curve p t0 (log10 s) <= curve p t0 (log10 t)).
  { destruct Q as [Q| ->]; [|lra]. left. apply curve_lt; [exact Hp|apply log10_lt; lra|apply log10_le; lra]. }
  lra.
Qed.

Lemma formation_unique p t0 f t s : legal p -> 0 < t0 -> 0 < f < 1 ->
  0 < t <= t0 -> 0 < s <= t0 -> has_fraction p t0 f t -> has_fraction p t0 f s -> t = s.
Proof.
  intros Hp H0 Hf Ht Hs Ft Fs.
  destruct (fraction_before p t0 f t Hp H0 Hf ltac:(lra) ltac:(lra) Ft) as [_ E].
  destruct (fraction_before p t0 f s Hp H0 Hf ltac:(lra) ltac:(lra) Fs) as [_ E'].
  destruct (Rtotal_order t s) as [Q|[Q|Q]]; [exfalso|exact Q|exfalso].
  - pose proof (curve_lt p t0 (log10 t) (log10 s) Hp ltac:(apply log10_lt; lra) ltac:(apply log10_le; lra)). lra.
  - pose proof (curve_lt p t0 (log10 s) (log10 t) Hp ltac:(apply log10_lt; lra) ltac:(apply log10_le; lra)). lra.
Qed.

(** Steeper halos form later. *)
Lemma steeper_later p q t0 f t s : legal p -> legal q -> 0 < t0 -> t0 <= t_peak p -> t0 <= t_peak q ->
  (forall x, idx (logtc p) (early_index p) (late_index p) x < idx (logtc q) (early_index q) (late_index q) x) ->
  0 < f < 1 -> 0 < t <= t0 -> 0 < s <= t0 -> has_fraction p t0 f t -> has_fraction q t0 f s -> t < s.
Proof.
  intros Hp Hq H0 Tp Tq HI Hf Ht Hs Ft Fs.
  destruct (fraction_before p t0 f t Hp H0 Hf ltac:(lra) ltac:(lra) Ft) as [_ E].
  destruct (fraction_before q t0 f s Hq H0 Hf ltac:(lra) ltac:(lra) Fs) as [_ E'].
  unfold X_of in E, E'. rewrite Rmin_left in E by lra. rewrite Rmin_left in E' by lra.
  pose proof (log10_neg f Hf) as Lf.
  destruct (Rlt_or_le t s) as [Q|Q]; [exact Q|exfalso].
  assert (LE : curve q t0 (log10 s) <= curve q t0 (log10 t)).
  { destruct Q as [Q| ->]; [|lra]. left. apply curve_lt; [exact Hq|apply log10_lt; lra|apply log10_le; lra]. }
  unfold curve, plaw in E, E', LE. pose proof (HI (log10 t)) as I.
  assert (Lt : log10 t < log10 t0).
  { destruct (Rle_lt_or_eq_dec t t0 ltac:(lra)) as [L| ->]; [apply log10_lt; lra|lra]. }
  nra.
Qed.

(** A larger early index: later at any peak time. *)
Lemma early_later m tc e e' l tp t0 f t s :
  legal (mkParams m tc e l tp) -> legal (mkParams m tc e' l tp) -> e < e' -> 0 < t0 -> 0 < f < 1 ->
  0 < t <= t0 -> 0 < s <= t0 ->
  has_fraction (mkParams m tc e l tp) t0 f t -> has_fraction (mkParams m tc e' l tp) t0 f s -> t < s.
Proof.
  intros Hp Hq L H0 Hf Ht Hs Ft Fs.
  destruct (fraction_before _ t0 f t Hp H0 Hf ltac:(lra) ltac:(lra) Ft) as [B E].
  destruct (fraction_before _ t0 f s Hq H0 Hf ltac:(lra) ltac:(lra) Fs) as [_ E']. cbn [t_peak] in B.
  pose proof (log10_neg f Hf) as Lf. pose proof (X_le _ t0 Hp H0) as HX.
  change (X_of (mkParams m tc e' l tp) t0) with (X_of (mkParams m tc e l tp) t0) in E'.
  assert (LX : log10 t < X_of (mkParams m tc e l tp) t0).
  { destruct (Rlt_or_le (log10 t) (X_of (mkParams m tc e l tp) t0)) as [Q|Q]; [exact Q|exfalso].
    assert (log10 t <= log10 t0) by (apply log10_le; lra).
    destruct Q as [Q|Q]; [pose proof (curve_lt _ t0 _ _ Hp Q ltac:(assumption)); lra|rewrite Q in E; lra]. }
  set (X := X_of (mkParams m tc e l tp) t0) in *.
  destruct (Rlt_or_le t s) as [Q|Q]; [exact Q|exfalso].
  assert (LE : curve (mkParams m tc e' l tp) t0 (log10 s) <= curve (mkParams m tc e' l tp) t0 (log10 t)).
  { destruct Q as [Q| ->]; [|lra]. left. apply curve_lt; [exact Hq|apply log10_lt; lra|apply log10_le; lra]. }
  assert (D : forall x, curve (mkParams m tc e' l tp) t0 x =
    curve (mkParams m tc e l tp) t0 x - (e' - e) * ((1 - logistic (35 / 10 * (x - tc))) * (log10 t0 - x))).
  { intros x. unfold curve, plaw, idx. cbn. ring. }
  rewrite D in LE, E'. rewrite D in E'. rewrite D in LE.
  pose proof (logistic_lt (35 / 10 * (log10 t - tc)) (35 / 10 * (X - tc)) ltac:(lra)) as S1.
  pose proof (logistic_bounds (35 / 10 * (log10 t - tc))) as S2. pose proof (logistic_bounds (35 / 10 * (X - tc))) as S3.
  set (a := logistic (35 / 10 * (log10 t - tc))) in *. set (b := logistic (35 / 10 * (X - tc))) in *.
  assert (G : (1 - b) * (log10 t0 - X) < (1 - a) * (log10 t0 - log10 t)).
  { apply (Rle_lt_trans _ ((1 - a) * (log10 t0 - X))); [apply Rmult_le_compat_r; lra|apply Rmult_lt_compat_l; lra]. }
  assert ((e' - e) * ((1 - b) * (log10 t0 - X)) < (e' - e) * ((1 - a) * (log10 t0 - log10 t))) by (apply Rmult_lt_compat_l; lra).
  lra.
Qed.

(** If [q] has a larger fraction at [t] than [p], it reaches the fraction of [p] earlier. *)
Lemma earlier_if_ahead p q t0 t : legal p -> legal q -> 0 < t0 -> 0 < t -> t < t0 -> t < t_peak p ->
  logmh_at_t_obs p t (log10 t0) - logmh_at_t_obs p t0 (log10 t0) < logmh_at_t_obs q t (log10 t0) - logmh_at_t_obs q t0 (log10 t0) ->
  logmh_at_t_obs q t (log10 t0) < logmh_at_t_obs q t0 (log10 t0) ->
  exists f s, 0 < f < 1 /\ 0 < s <= t0 /\ has_fraction p t0 f t /\ has_fraction q t0 f s /\ s < t.
Proof.
  intros Hp Hq H0 P L Lp A B.
  set (dp := logmh_at_t_obs p t (log10 t0) - logmh_at_t_obs p t0 (log10 t0)) in *.
  set (dq := logmh_at_t_obs q t (log10 t0) - logmh_at_t_obs q t0 (log10 t0)) in *.
  assert (Bq : dq < 0) by (unfold dq; lra).
  assert (F1 : pow10 dp < pow10 dq) by (now apply pow10_lt).
  assert (F2 : pow10 dq < 1).
  { rewrite <- (pow10_log10 1), log10_1 by lra. apply pow10_lt. exact Bq. }
  assert (F0 : 0 < pow10 dp) by apply pow10_pos.
  assert (Fp : has_fraction p t0 (pow10 dp) t).
  { apply fraction_log; [exact F0|]. rewrite log10_pow10. unfold dp. ring. }
  assert (Fq : has_fraction q t0 (pow10 dq) t).
  { apply fraction_log; [apply pow10_pos|]. rewrite log10_pow10. unfold dq. ring. }
  destruct (formation_exists q t0 (pow10 dp) Hq H0 ltac:(lra)) as (s & S1 & S2 & _ & S3).
  exists (pow10 dp), s. split; [lra|]. split; [lra|]. split; [exact Fp|]. split; [exact S3|].
  apply (formation_order q t0 (pow10 dp) (pow10 dq) s t); auto; lra.
Qed.

(** Two halos that peak at 1 Gyr, seen at 0.1 Gyr; today is at 10 Gyr. *)
Lemma at_tenth m tc e l : legal (mkParams m tc e l 1) ->
  logmh_at_t_obs (mkParams m tc e l 1) (1 / 10) (log10 10) = (e + (l - e) * logistic (35 / 10 * (-1 - tc))) * -2 + m.
Proof.
  intros H. rewrite curve_at by (auto; lra). cbn [t_peak]. rewrite Rmin_left by lra.
  assert (E : log10 (1 / 10) = -1).
  { replace (1 / 10) with (/ 10) by field. unfold log10. rewrite ln_Rinv by lra. pose proof ln10_pos. field. lra. }
  rewrite E. unfold curve, plaw, idx. cbn. rewrite log10_10. ring.
Qed.

Lemma at_ten m tc e l : legal (mkParams m tc e l 1) ->
  logmh_at_t_obs (mkParams m tc e l 1) 10 (log10 10) = (e + (l - e) * logistic (35 / 10 * (0 - tc))) * -1 + m.
Proof.
  intros H. rewrite curve_at by (auto; lra). cbn [t_peak]. rewrite Rmin_right by lra. rewrite log10_1.
  unfold curve, plaw, idx. cbn. rewrite log10_10. ring.
Qed.

Lemma logistic_small : logistic (35 / 10 * (-1 - 0)) < 12 / 100.
Proof.
  unfold logistic. replace (- (35 / 10 * (-1 - 0))) with (175 / 100 + 175 / 100) by field. rewrite exp_plus.
  pose proof (exp_ineq1_le (175 / 100)) as E.
  apply (Rmult_lt_reg_r (1 + exp (175 / 100) * exp (175 / 100))); [nra|].
  rewrite Rinv_l by nra. nra.
Qed.

Lemma logistic_small' : logistic (35 / 10 * (0 - 9 / 10)) < 2 / 10.
Proof.
  unfold logistic. replace (- (35 / 10 * (0 - 9 / 10))) with (315 / 100) by field.
  pose proof (exp_ineq1_le (315 / 100)) as E.
  apply (Rmult_lt_reg_r (1 + exp (315 / 100))); [lra|]. rewrite Rinv_l by lra. lra.
Qed.

(** A later peak: later, if the earlier of the two lies before today. *)
Lemma peak_later m tc e l tp tp' t0 f t s :
  legal (mkParams m tc e l tp) -> legal (mkParams m tc e l tp') -> tp < tp' -> tp < t0 -> 0 < t0 -> 0 < f < 1 ->
  0 < t <= t0 -> 0 < s <= t0 ->
  has_fraction (mkParams m tc e l tp) t0 f t -> has_fraction (mkParams m tc e l tp') t0 f s -> t < s.
Proof.
  intros Hp Hq L Lt H0 Hf Ht Hs Ft Fs.
  destruct (fraction_before _ t0 f t Hp H0 Hf ltac:(lra) ltac:(lra) Ft) as [_ E].
  destruct (fraction_before _ t0 f s Hq H0 Hf ltac:(lra) ltac:(lra) Fs) as [_ E'].
  assert (P : 0 < tp) by (unfold legal in Hp; cbn in Hp; lra).
  assert (LX : X_of (mkParams m tc e l tp) t0 < X_of (mkParams m tc e l tp') t0).
  { unfold X_of. cbn [t_peak]. rewrite (Rmin_right t0 tp) by lra. apply log10_lt; [lra|]. apply Rmin_glb_lt; lra. }
  assert (C : forall x, curve (mkParams m tc e l tp') t0 x = curve (mkParams m tc e l tp) t0 x) by reflexivity.
  pose proof (curve_lt _ t0 _ _ Hp LX (X_le _ t0 Hq H0)) as A. rewrite C in E'. rewrite C in E'.
  destruct (Rlt_or_le t s) as [Q|Q]; [exact Q|exfalso].
  destruct Q as [Q| ->]; [|lra].
  pose proof (curve_lt _ t0 (log10 s) (log10 t) Hp ltac:(apply log10_lt; lra) ltac:(apply log10_le; lra)). lra.
Qed.
