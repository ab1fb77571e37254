(** More facts about the real kernels: normalisation, power-law envelope,
    populations, counterexample to monotonicity, invariances. *)

From Coq Require Import Reals Lra List Lia.
From Coquelicot Require Import Coquelicot.
From Verif Require Import Model_Num RealAux Model_Kernels Spec_Kernels Proofs_Kernels.
Import ListNotations.
Local Open Scope R_scope.

Lemma plaw_at_x0 x0 m tc e l : plaw x0 m tc e l x0 = m.
Proof. unfold plaw. ring. Qed.

Lemma plaw_below x0 m tc e l x :
  0 < l -> l < e -> x < x0 ->
  m + e * (x - x0) < plaw x0 m tc e l x < m + l * (x - x0).
Proof.
  intros Hl Hle Hx. unfold plaw.
  pose proof (idx_between tc e l Hle x). split; nra.
Qed.

Lemma plaw_lt_norm x0 m tc e l x :
  0 < l -> l < e -> x < x0 -> plaw x0 m tc e l x < m.
Proof.
  intros Hl Hle Hx. pose proof (plaw_below x0 m tc e l x Hl Hle Hx). nra.
Qed.

Lemma plaw_le_norm x0 m tc e l x :
  0 < l -> l < e -> x <= x0 -> plaw x0 m tc e l x <= m.
Proof.
  intros Hl Hle [Hx|Hx].
  - left. now apply plaw_lt_norm.
  - right. subst. apply plaw_at_x0.
Qed.

Lemma norm_at_t0 p lgt0 :
  legal p ->
  (logmh_at_t_obs p (pow10 lgt0) lgt0 = logm0 p <-> pow10 lgt0 <= t_peak p)
  /\ (t_peak p < pow10 lgt0 -> logmh_at_t_obs p (pow10 lgt0) lgt0 < logm0 p).
Proof.
  intros (_ & _ & H3 & H4 & H5).
  assert (HLT : t_peak p < pow10 lgt0 -> logmh_at_t_obs p (pow10 lgt0) lgt0 < logm0 p).
  { intros H. unfold logmh_at_t_obs. rewrite log_mah_kern_min, Rmin_right by lra.
    rewrite log_mah_noq_R. apply plaw_lt_norm; try lra.
    apply log10_lt_pow10; lra. }
  split; auto. split.
  - intros HE. destruct (Rle_lt_dec (pow10 lgt0) (t_peak p)); auto.
    specialize (HLT r). lra.
  - intros H. unfold logmh_at_t_obs. rewrite log_mah_kern_min, Rmin_left by lra.
    rewrite log_mah_noq_R, log10_pow10. apply plaw_at_x0.
Qed.

Lemma frozen_after_peak p lgt0 t :
  t_peak p <= t -> logmh_at_t_obs p t lgt0 = logmh_at_t_obs p (t_peak p) lgt0.
Proof.
  intros H. unfold logmh_at_t_obs. rewrite !log_mah_kern_after by lra. reflexivity.
Qed.

Lemma below_logm0 p lgt0 t :
  legal p -> 0 < t -> t <= pow10 lgt0 -> logmh_at_t_obs p t lgt0 <= logm0 p.
Proof.
  intros (_ & _ & H3 & H4 & H5) Ht Ht0. unfold logmh_at_t_obs.
  rewrite log_mah_kern_min, log_mah_noq_R. apply plaw_le_norm; try lra.
  apply log10_le_pow10.
  - apply Rmin_pos; lra.
  - pose proof (Rmin_l t (t_peak p)). lra.
Qed.

Lemma envelope p lgt0 t :
  legal p -> 0 < t -> t < pow10 lgt0 -> t < t_peak p ->
  logm0 p + early_index p * (log10 t - lgt0) < logmh_at_t_obs p t lgt0
  < logm0 p + late_index p * (log10 t - lgt0).
Proof.
  intros (_ & _ & H3 & H4 & H5) Ht Ht0 Htp. unfold logmh_at_t_obs.
  rewrite log_mah_kern_before, log_mah_noq_R by auto. apply plaw_below; try lra.
  apply log10_lt_pow10; lra.
Qed.

Lemma index_between p logt :
  legal p ->
  late_index p < power_law_index_vs_logt logt (logtc p) (early_index p) (late_index p)
  < early_index p.
Proof.
  intros (_ & _ & H3 & H4 & H5).
  exact (idx_between (logtc p) (early_index p) (late_index p) ltac:(lra) logt).
Qed.

Lemma index_decreasing p x y :
  legal p -> x < y ->
  power_law_index_vs_logt y (logtc p) (early_index p) (late_index p)
  < power_law_index_vs_logt x (logtc p) (early_index p) (late_index p).
Proof.
  intros (_ & _ & H3 & H4 & H5) Hxy.
  exact (idx_decreasing (logtc p) (early_index p) (late_index p) ltac:(lra) x y Hxy).
Qed.

(** ** Invariances *)

Lemma shift_logm0 p d lgt0 t :
  logmh_at_t_obs (mkParams (logm0 p + d) (logtc p) (early_index p) (late_index p) (t_peak p)) t lgt0
  = logmh_at_t_obs p t lgt0 + d.
Proof.
  unfold logmh_at_t_obs. rewrite !log_mah_kern_min. cbn [t_peak].
  rewrite !log_mah_noq_R. cbn [logm0 logtc early_index late_index]. unfold plaw. ring.
Qed.

Lemma rate_shift p d lgt0 t :
  0 < t ->
  rate (mkParams (logm0 p + d) (logtc p) (early_index p) (late_index p) (t_peak p)) lgt0 t
  = pow10 d * rate p lgt0 t.
Proof.
  intros Ht. set (q := mkParams _ _ _ _ _).
  destruct (Rle_lt_dec t (t_peak p)) as [H|H].
  - rewrite !rate_before, !dmhdt_noq_grad_R by auto.
    unfold mah_noq_kern. rewrite !log_mah_noq_R. subst q.
    cbn [logm0 logtc early_index late_index t_peak].
    replace (plaw lgt0 (logm0 p + d) (logtc p) (early_index p) (late_index p) (log10 t))
      with (plaw lgt0 (logm0 p) (logtc p) (early_index p) (late_index p) (log10 t) + d)
      by (unfold plaw; ring).
    change (@npow10 R Num_R) with pow10. rewrite pow10_plus. field. lra.
  - rewrite !rate_after by auto. ring.
Qed.

(** Changing the unit of time (t, t0, tc and t_peak scaled together) does not
    change the mass history. *)
Lemma time_unit_invariance p c lgt0 t :
  0 < c -> 0 < t -> 0 < t_peak p ->
  logmh_at_t_obs
    (mkParams (logm0 p) (logtc p + log10 c) (early_index p) (late_index p) (c * t_peak p))
    (c * t) (lgt0 + log10 c)
  = logmh_at_t_obs p t lgt0.
Proof.
  intros Hc Ht Hp. unfold logmh_at_t_obs. rewrite !log_mah_kern_min. cbn [t_peak].
  replace (Rmin (c * t) (c * t_peak p)) with (c * Rmin t (t_peak p)).
  - assert (Hm : 0 < Rmin t (t_peak p)) by (apply Rmin_pos; auto).
    rewrite !log_mah_noq_R. cbn [logm0 logtc early_index late_index].
    assert (HE : log10 (c * Rmin t (t_peak p)) = log10 (Rmin t (t_peak p)) + log10 c).
    { unfold log10. rewrite ln_mult by auto. field. apply ln10_neq0. }
    rewrite HE. unfold plaw, idx.
    replace (log10 (Rmin t (t_peak p)) + log10 c - (logtc p + log10 c))
      with (log10 (Rmin t (t_peak p)) - logtc p) by ring.
    ring.
  - unfold Rmin; repeat destruct (Rle_dec _ _); auto; nra.
Qed.

(** ** Continuity in time *)

Lemma mass_continuous p lgt0 t :
  0 < t -> 0 < t_peak p -> continuous (fun t => logmh_at_t_obs p t lgt0) t.
Proof.
  intros Ht Hp.
  apply (continuous_ext (fun t => log_mah_noq_kern p (Rmin t (t_peak p)) lgt0)).
  { intros x. symmetry. apply log_mah_kern_min. }
  apply (continuous_comp (fun t => Rmin t (t_peak p)) (fun t => log_mah_noq_kern p t lgt0)).
  - destruct (Rlt_le_dec t (t_peak p)) as [H|H].
    + apply (continuous_ext_loc _ (fun x => x)).
      * apply (filter_imp (fun y => y < t_peak p)); [|now apply locally_lt].
        intros y Hy. symmetry; apply Rmin_left; lra.
      * apply continuous_id.
    + destruct H as [H|H].
      * apply (continuous_ext_loc _ (fun x => t_peak p)).
        -- apply (filter_imp (fun y => t_peak p < y)); [|now apply locally_gt].
           intros y Hy. symmetry; apply Rmin_right; lra.
        -- apply continuous_const.
      * apply continuity_pt_filterlim. intros eps Heps.
        exists eps. split; auto. intros x [_ Hx]. cbn in *. unfold R_dist in *.
        rewrite (Rmin_left t) by lra.
        unfold Rmin. destruct (Rle_dec x (t_peak p)); [exact Hx|].
        rewrite H. replace (t - t) with 0 by ring. rewrite Rabs_R0; auto.
  - set (s := Rmin t (t_peak p)).
    assert (Hs : 0 < s) by (apply Rmin_pos; auto).
    apply (continuous_comp log10
      (plaw lgt0 (logm0 p) (logtc p) (early_index p) (late_index p))).
    + apply (ex_derive_continuous log10). eexists. now apply is_derive_log10.
    + apply (ex_derive_continuous (plaw _ _ _ _ _)). eexists. apply is_derive_plaw.
Qed.

(** ** Populations *)

Lemma rows5_spec {A} (c1 c2 c3 c4 c5 : list A) r :
  rows5 c1 c2 c3 c4 c5 = Some r ->
  length c1 = length r /\ length c2 = length r /\ length c3 = length r /\
  length c4 = length r /\ length c5 = length r /\
  (forall i x1 x2 x3 x4 x5,
     nth_error c1 i = Some x1 -> nth_error c2 i = Some x2 -> nth_error c3 i = Some x3 ->
     nth_error c4 i = Some x4 -> nth_error c5 i = Some x5 ->
     nth_error r i = Some (mkParams x1 x2 x3 x4 x5)).
Proof.
  revert c2 c3 c4 c5 r. induction c1 as [|a1 c1 IH]; intros [|a2 c2] [|a3 c3] [|a4 c4] [|a5 c5] r H;
    cbn in H; try discriminate.
  - injection H as <-. cbn. repeat split; auto.
    intros [|i]; cbn; discriminate.
  - destruct (rows5 c1 c2 c3 c4 c5) as [r'|] eqn:E; [|discriminate]. injection H as <-.
    destruct (IH _ _ _ _ _ E) as (L1 & L2 & L3 & L4 & L5 & HN).
    cbn. repeat split; auto.
    intros [|i] x1 x2 x3 x4 x5; cbn; intros; [congruence|]. eapply HN; eauto.
Qed.

Lemma rows5_total {A} (c1 c2 c3 c4 c5 : list A) :
  (exists r, rows5 c1 c2 c3 c4 c5 = Some r) <->
  (length c2 = length c1 /\ length c3 = length c1 /\ length c4 = length c1 /\ length c5 = length c1).
Proof.
  split.
  - intros [r H]. apply rows5_spec in H. intuition congruence.
  - revert c2 c3 c4 c5. induction c1 as [|a1 c1 IH];
      intros [|a2 c2] [|a3 c3] [|a4 c4] [|a5 c5] (H2 & H3 & H4 & H5); cbn in *; try discriminate.
    + eauto.
    + injection H2 as H2; injection H3 as H3; injection H4 as H4; injection H5 as H5.
      destruct (IH c2 c3 c4 c5) as [r ->]; auto. eauto.
Qed.

(** ** A legal halo whose mass decreases after t0 *)

Definition decreasing_halo : DiffmahParams R := mkParams 12 (1 / 2) (99 / 10) (11 / 100) 15.

Lemma decreasing_halo_legal : legal decreasing_halo.
Proof. unfold legal, decreasing_halo; cbn; lra. Qed.

Lemma decreasing_halo_decreases :
  logmh_at_t_obs decreasing_halo 10 (-1) < logmh_at_t_obs decreasing_halo 1 (-1).
Proof.
  unfold logmh_at_t_obs. rewrite !log_mah_kern_before by (cbn; lra).
  rewrite !log_mah_noq_R. cbn [decreasing_halo logm0 logtc early_index late_index].
  rewrite log10_1, log10_10. unfold plaw, idx.
  set (a := logistic (35 / 10 * (1 - 1 / 2))). set (b := logistic (35 / 10 * (0 - 1 / 2))).
  assert (Ha : 11 / 15 <= a).
  { unfold a, logistic. replace (35 / 10 * (1 - 1 / 2)) with (7 / 4) by lra.
    assert (HE : exp (- (7 / 4)) <= 4 / 11).
    { rewrite exp_Ropp. replace (4 / 11) with (/ (11 / 4)) by lra.
      apply Rinv_le_contravar; [lra|].
      pose proof (exp_ineq1 (7 / 4) ltac:(lra)). lra. }
    pose proof (exp_pos (- (7 / 4))).
    replace (11 / 15) with (/ (15 / 11)) by lra.
    apply Rinv_le_contravar; lra. }
  assert (Hb : b <= 4 / 15).
  { unfold b, logistic. replace (- (35 / 10 * (0 - 1 / 2))) with (7 / 4) by lra.
    pose proof (exp_ineq1 (7 / 4) ltac:(lra)).
    replace (4 / 15) with (/ (15 / 4)) by lra.
    apply Rinv_le_contravar; lra. }
  lra.
Qed.

Lemma exp_INR_pow n x : exp x ^ n = exp (INR n * x).
Proof.
  induction n.
  - cbn. rewrite Rmult_0_l. symmetry. apply exp_0.
  - rewrite S_INR. cbn [pow]. rewrite IHn, <- exp_plus. f_equal. ring.
Qed.

Lemma pow10_INR_pow n x : pow10 x ^ n = pow10 (INR n * x).
Proof. unfold pow10. rewrite exp_INR_pow. f_equal. ring. Qed.

Lemma pow10_22_63_bound : 2234 / 1000 <= pow10 (22 / 63).
Proof.
  destruct (Rle_lt_dec (2234 / 1000) (pow10 (22 / 63))) as [|H]; auto. exfalso.
  pose proof (pow10_pos (22 / 63)) as HP.
  assert (HE : pow10 (22 / 63) ^ 63 = 10 ^ 22).
  { rewrite <- pow10_1, !pow10_INR_pow. f_equal. rewrite !INR_IZR_INZ. cbn -[IZR]. lra. }
  assert (HL : pow10 (22 / 63) ^ 63 <= (2234 / 1000) ^ 63).
  { apply pow_incr. lra. }
  rewrite HE in HL. lra.
Qed.

(** ** The condition on t_peak is exact *)

Lemma logistic_ln10 : logistic (ln 10) = 10 / 11.
Proof. unfold logistic. rewrite exp_Ropp, exp_ln by lra. lra. Qed.

Lemma ln10_bounds : 2 < ln 10 < 24 / 10.
Proof.
  split; apply exp_lt_inv; rewrite exp_ln by lra.
  - replace 2 with (1 + 1) by lra. rewrite exp_plus. pose proof exp_le_3. pose proof (exp_pos 1). nra.
  - replace (24 / 10) with (INR 100 * (24 / 1000)) by (rewrite INR_IZR_INZ; cbn -[IZR]; lra).
    rewrite <- exp_INR_pow.
    assert (HE : (1024 / 1000) ^ 100 <= exp (24 / 1000) ^ 100).
    { apply pow_incr. pose proof (exp_ineq1 (24 / 1000) ltac:(lra)). lra. }
    lra.
Qed.

Lemma log10_2_bound : log10 2 < 31 / 100.
Proof.
  apply log10_lt_pow10; [lra|].
  destruct (Rlt_le_dec 2 (pow10 (31 / 100))) as [|H]; auto. exfalso.
  pose proof (pow10_pos (31 / 100)) as HP.
  assert (HE : pow10 (31 / 100) ^ 100 = 10 ^ 31).
  { rewrite <- pow10_1, !pow10_INR_pow. f_equal. rewrite !INR_IZR_INZ. cbn -[IZR]. lra. }
  assert (HL : pow10 (31 / 100) ^ 100 <= 2 ^ 100) by (apply pow_incr; lra).
  rewrite HE in HL. lra.
Qed.

Lemma log10_range T : 1 / 2 <= T < 20 -> - (31 / 100) < log10 T < 131 / 100.
Proof.
  intros [H1 H2]. pose proof log10_2_bound as HB.
  assert (E1 : log10 (1 / 2) = - log10 2).
  { unfold log10. replace (1 / 2) with (/ 2) by lra. rewrite ln_Rinv by lra.
    field. apply ln10_neq0. }
  assert (E2 : log10 20 = 1 + log10 2).
  { unfold log10. replace 20 with (10 * 2) by lra. rewrite ln_mult by lra.
    field. apply ln10_neq0. }
  pose proof (log10_le (1 / 2) T ltac:(lra) H1). pose proof (log10_lt T 20 ltac:(lra) H2). lra.
Qed.

(** A legal halo whose mass falls just before its peak, for any peak time [T] later
    than the threshold: the two indices sit within [eps] of their bounds and the
    transition [ln 10 / 3.5] dex before the peak. *)
Definition falling_halo (T eps : R) : DiffmahParams R :=
  mkParams 12 (log10 T - ln 10 / (35 / 10)) (10 - eps) (1 / 10 + eps) T.

Lemma falling_halo_exists T lgt0 : 1 / 2 <= T < 20 -> pow10 (22 / 63) * pow10 lgt0 < T ->
  exists p, legal p /\ t_peak p = T /\ rate p lgt0 T < 0.
Proof.
  intros HT H.
  pose proof (log10_range T HT) as HR. pose proof ln10_bounds as HN.
  rewrite <- pow10_plus in H. apply log10_gt_pow10 in H.
  set (u := 35 / 10 * (log10 T - lgt0)).
  assert (Hu : 11 / 9 < u) by (unfold u; lra).
  set (eps := Rmin 1 ((u - 11 / 9) / 10)).
  assert (He : 0 < eps <= 1 /\ eps <= (u - 11 / 9) / 10).
  { unfold eps. pose proof (Rmin_l 1 ((u - 11 / 9) / 10)). pose proof (Rmin_r 1 ((u - 11 / 9) / 10)).
    split; [split|]; try lra. apply Rmin_glb_lt; lra. }
  exists (falling_halo T eps). split; [|split].
  - unfold legal, falling_halo; cbn -[Rdiv]. 
    repeat match goal with |- _ /\ _ => split end; try lra.
  - reflexivity.
  - rewrite rate_before by (cbn; lra). rewrite dmhdt_noq_grad_R by lra.
    unfold falling_halo, dplaw. cbn [logm0 logtc early_index late_index t_peak].
    replace (35 / 10 * (log10 T - (log10 T - ln 10 / (35 / 10)))) with (ln 10) by field.
    rewrite logistic_ln10.
    match goal with |- _ * (?d / T) / _ < 0 => assert (HD : d < 0) end.
    { replace (35 / 10 * (10 / 11) * (log10 T - lgt0)) with (10 / 11 * u) by (unfold u; field).
      nra. }
    match goal with |- ?m * (?d / T) / ?c < 0 =>
      replace (m * (d / T) / c) with (- (m * (- d / T) / c)) by (field; lra);
      assert (0 < m * (- d / T) / c); [|lra] end.
    apply Rdiv_lt_0_compat; [|lra]. apply Rmult_lt_0_compat; [apply pow10_pos|].
    apply Rdiv_lt_0_compat; lra.
Qed.

(** A negative rate at the peak means mass was higher shortly before. *)
Lemma falling_before_peak p lgt0 : 0 < t_peak p -> rate p lgt0 (t_peak p) < 0 ->
  exists t, 0 < t < t_peak p /\ logmh_at_t_obs p (t_peak p) lgt0 < logmh_at_t_obs p t lgt0.
Proof.
  intros Ht HR. pose proof (rate_left_derivative p lgt0 Ht) as HL.
  set (d := 1000000000 * rate p lgt0 (t_peak p)) in *.
  destruct (HL (- d) ltac:(unfold d; lra)) as (delta & Hd & HB).
  set (h := - Rmin (delta / 2) (t_peak p / 2)).
  assert (Hh : - delta < h < 0 /\ - t_peak p < h).
  { unfold h. pose proof (Rmin_l (delta / 2) (t_peak p / 2)). pose proof (Rmin_r (delta / 2) (t_peak p / 2)).
    assert (0 < Rmin (delta / 2) (t_peak p / 2)) by (apply Rmin_glb_lt; lra). lra. }
  specialize (HB h (proj1 Hh)). apply Rabs_def2 in HB. destruct HB as [HB _].
  exists (t_peak p + h). split; [lra|].
  set (a := mass p lgt0 (t_peak p + h)) in *. set (b := mass p lgt0 (t_peak p)) in *.
  assert (HQ : (a - b) / h < 0) by lra.
  assert (HA : b < a).
  { assert (HX : a - b = (a - b) / h * h) by (field; lra). nra. }
  unfold a, b, mass in HA. apply exp_lt_inv in HA. pose proof ln10_pos. nra.
Qed.
