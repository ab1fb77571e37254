(** Proofs about the halo-growth kernels over the reals. *)

From Coq Require Import Reals Lra List Lia.
From Coquelicot Require Import Coquelicot.
From Verif Require Import Model_Num RealAux Model_Kernels Spec_Kernels.
Import ListNotations.
Local Open Scope R_scope.

(** ** Sigmoid *)

Lemma sigmoid_R x x0 k ylo yhi :
  sigmoid x x0 k ylo yhi = ylo + (yhi - ylo) * logistic (k * (x - x0)).
Proof. reflexivity. Qed.

Lemma inverse_sigmoid_R y x0 k ylo yhi :
  inverse_sigmoid y x0 k ylo yhi = x0 - ln ((yhi - ylo) / (y - ylo) - 1) / k.
Proof. reflexivity. Qed.

Lemma sigmoid_between x x0 k ylo yhi :
  ylo < yhi -> ylo < sigmoid x x0 k ylo yhi < yhi.
Proof.
  intros H. rewrite sigmoid_R. destruct (logistic_bounds (k * (x - x0))) as [H0 H1].
  split; nra.
Qed.

Lemma sigmoid_between_desc x x0 k ylo yhi :
  yhi < ylo -> yhi < sigmoid x x0 k ylo yhi < ylo.
Proof.
  intros H. rewrite sigmoid_R. destruct (logistic_bounds (k * (x - x0))) as [H0 H1].
  split; nra.
Qed.

Lemma sigmoid_range x x0 k ylo yhi a b :
  a < ylo < b -> a < yhi < b -> a < sigmoid x x0 k ylo yhi < b.
Proof.
  intros H1 H2. rewrite sigmoid_R. destruct (logistic_bounds (k * (x - x0))) as [L0 L1].
  split; nra.
Qed.

Lemma sigmoid_range_le x x0 k ylo yhi a b :
  a <= ylo <= b -> a <= yhi <= b -> a <= sigmoid x x0 k ylo yhi <= b.
Proof.
  intros H1 H2. rewrite sigmoid_R. destruct (logistic_bounds (k * (x - x0))) as [L0 L1].
  split; nra.
Qed.

Lemma sigmoid_inverse y x0 k ylo yhi :
  k <> 0 -> ylo < y < yhi ->
  sigmoid (inverse_sigmoid y x0 k ylo yhi) x0 k ylo yhi = y.
Proof.
  intros Hk [Hlo Hhi]. rewrite sigmoid_R, inverse_sigmoid_R.
  replace (k * (x0 - ln ((yhi - ylo) / (y - ylo) - 1) / k - x0))
    with (- ln (/ ((y - ylo) / (yhi - ylo)) - 1)).
  - rewrite logistic_ln.
    + field; lra.
    + split.
      * apply Rdiv_lt_0_compat; lra.
      * apply Rmult_lt_reg_r with (yhi - ylo); [lra|].
        unfold Rdiv. rewrite Rmult_assoc, Rinv_l; lra.
  - replace (/ ((y - ylo) / (yhi - ylo))) with ((yhi - ylo) / (y - ylo)) by (field; lra).
    field; auto.
Qed.

Lemma inverse_sigmoid_sigmoid x x0 k ylo yhi :
  k <> 0 -> ylo <> yhi ->
  inverse_sigmoid (sigmoid x x0 k ylo yhi) x0 k ylo yhi = x.
Proof.
  intros Hk Hne. rewrite inverse_sigmoid_R, sigmoid_R.
  pose proof (logistic_pos (k * (x - x0))) as Hp.
  replace (ylo + (yhi - ylo) * logistic (k * (x - x0)) - ylo)
    with ((yhi - ylo) * logistic (k * (x - x0))) by ring.
  replace ((yhi - ylo) / ((yhi - ylo) * logistic (k * (x - x0))) - 1)
    with (/ logistic (k * (x - x0)) - 1) by (field; split; lra).
  rewrite logistic_inv, ln_exp. field; auto.
Qed.

(** ** Bounding of the five halo parameters *)

Lemma bounded_param_between u lo hi :
  lo < hi -> lo < get_bounded_diffmah_param u (lo, hi) < hi.
Proof. intros H. now apply sigmoid_between. Qed.

Lemma bounded_unbounded_param p lo hi :
  lo < p < hi ->
  get_bounded_diffmah_param (get_unbounded_diffmah_param p (lo, hi)) (lo, hi) = p.
Proof.
  intros H. unfold get_bounded_diffmah_param, get_unbounded_diffmah_param.
  apply sigmoid_inverse; auto. cbn. lra.
Qed.

Lemma unbounded_bounded_param u lo hi :
  lo < hi ->
  get_unbounded_diffmah_param (get_bounded_diffmah_param u (lo, hi)) (lo, hi) = u.
Proof.
  intros H. unfold get_bounded_diffmah_param, get_unbounded_diffmah_param.
  apply inverse_sigmoid_sigmoid; cbn; lra.
Qed.

Lemma bounded_legal (u : DiffmahUParams R) : legal (get_bounded_mah_params u).
Proof.
  unfold legal, get_bounded_mah_params, get_early_late.
  cbn -[get_bounded_diffmah_param sigmoid Rdiv].
  pose proof (bounded_param_between (u_late_index u) (1/10) 5 ltac:(lra)) as HL.
  refine (conj _ (conj _ (conj HL (conj _ _)))).
  - apply (bounded_param_between _ 0 17). lra.
  - apply (bounded_param_between _ (-1) 1). lra.
  - apply sigmoid_between. lra.
  - apply (bounded_param_between _ (5 / 100) 20). lra.
Qed.

Lemma bounded_unbounded p :
  legal p -> get_bounded_mah_params (get_unbounded_mah_params p) = p.
Proof.
  intros (H1 & H2 & H3 & H4 & H5). destruct p as [lm ltc e l tp].
  unfold get_bounded_mah_params, get_unbounded_mah_params, get_early_late, get_u_early_late.
  cbn -[get_bounded_diffmah_param get_unbounded_diffmah_param sigmoid inverse_sigmoid Rdiv] in *.
  rewrite !bounded_unbounded_param by auto.
  f_equal. apply sigmoid_inverse; auto. cbn; lra.
Qed.

Lemma unbounded_bounded (u : DiffmahUParams R) :
  get_unbounded_mah_params (get_bounded_mah_params u) = u.
Proof.
  destruct u as [um uc ue ul ut].
  unfold get_bounded_mah_params, get_unbounded_mah_params, get_early_late, get_u_early_late.
  cbn -[get_bounded_diffmah_param get_unbounded_diffmah_param sigmoid inverse_sigmoid Rdiv] in *.
  pose proof (bounded_param_between ul (1/10) 5 ltac:(lra)) as HL.
  rewrite !unbounded_bounded_param by lra.
  f_equal. apply inverse_sigmoid_sigmoid; cbn in *; lra.
Qed.

(** ** Closed form of the growth law in log time *)

Section Plaw.
  Variables (x0 m tc e l : R).

  Definition idx (x : R) := e + (l - e) * logistic (35 / 10 * (x - tc)).
  Definition plaw (x : R) := idx x * (x - x0) + m.
  Definition dplaw (x : R) :=
    let s := logistic (35 / 10 * (x - tc)) in
    l + (e - l) * (1 - s) * (1 - 35 / 10 * s * (x - x0)).

  Lemma rolling_plaw_R x : rolling_plaw_vs_logt x x0 m tc e l = plaw x.
  Proof. reflexivity. Qed.

  Lemma is_derive_plaw x : is_derive plaw x (dplaw x).
  Proof.
    unfold plaw, idx, dplaw.
    set (s := logistic (35 / 10 * (x - tc))).
    evar (d : R).
    assert (is_derive (fun x => (e + (l - e) * logistic (35 / 10 * (x - tc))) * (x - x0) + m) x d).
    { subst d. auto_derive.
      - repeat split. exists (s * (1 - s)). apply is_derive_logistic.
      - reflexivity. }
    subst d.
    replace (l + (e - l) * (1 - s) * (1 - 35 / 10 * s * (x - x0))) with
      ((l - e) * (1 * (35 / 10 * 1) * Derive (fun x1 => logistic x1) (35 / 10 * (x - tc)))
       * (x - x0) + (e + (l - e) * logistic (35 / 10 * (x - tc))) * 1).
    - apply (is_derive_ext _ _ _ _ (fun _ => eq_refl)) in H.
      eapply is_derive_ext; [intros; reflexivity|].
      match type of H with is_derive _ _ ?a => match goal with |- is_derive _ _ ?b =>
        replace b with a; [exact H|] end end.
      unfold Rminus; ring.
    - rewrite (is_derive_unique _ _ _ (is_derive_logistic _)).
      fold s. field.
  Qed.

  Hypothesis Hl : 0 < l.
  Hypothesis Hle : l < e.

  Lemma idx_between x : l < idx x < e.
  Proof. unfold idx. destruct (logistic_bounds (35 / 10 * (x - tc))). split; nra. Qed.

  Lemma idx_decreasing x y : x < y -> idx y < idx x.
  Proof.
    intros H. unfold idx.
    assert (logistic (35 / 10 * (x - tc)) < logistic (35 / 10 * (y - tc))).
    { apply logistic_lt. lra. }
    nra.
  Qed.

  (** The largest possible ratio of the two indices is 100. *)
  Hypothesis Hratio : e < 100 * l.

  Lemma dplaw_pos x : 35 / 10 * (x - x0) <= 11 / 9 -> 0 < dplaw x.
  Proof.
    intros H. unfold dplaw. cbv zeta.
    destruct (logistic_bounds (35 / 10 * (x - tc))) as [S0 S1].
    set (s := logistic (35 / 10 * (x - tc))) in *.
    (* 1/99 + (1-s)(1 - 11/9 s) is a multiple of a square *)
    assert (HQ : - (1 / 99) <= (1 - s) * (1 - 11 / 9 * s)).
    { replace ((1 - s) * (1 - 11 / 9 * s)) with (11 / 9 * (s - 10 / 11) ^ 2 - 1 / 99) by field.
      pose proof (pow2_ge_0 (s - 10 / 11)). lra. }
    assert (HM : (1 - s) * (1 - 11 / 9 * s) <= (1 - s) * (1 - 35 / 10 * s * (x - x0))).
    { apply Rmult_le_compat_l; [lra|]. nra. }
    replace ((e - l) * (1 - s) * (1 - 35 / 10 * s * (x - x0)))
      with ((e - l) * ((1 - s) * (1 - 35 / 10 * s * (x - x0)))) by ring.
    assert ((e - l) * - (1 / 99) <= (e - l) * ((1 - s) * (1 - 35 / 10 * s * (x - x0)))).
    { apply Rmult_le_compat_l; lra. }
    lra.
  Qed.

  Lemma plaw_increasing x y : x < y -> 35 / 10 * (y - x0) <= 11 / 9 -> plaw x < plaw y.
  Proof.
    intros Hxy Hy.
    destruct (MVT_cor2 plaw dplaw x y Hxy) as (c & Hc & Hin).
    - intros c Hc. apply is_derive_Reals, is_derive_plaw.
    - assert (0 < dplaw c) by (apply dplaw_pos; lra). nra.
  Qed.
End Plaw.

(** ** Pointwise behaviour of the kernels *)

Lemma log_mah_noq_R p t lgt0 :
  log_mah_noq_kern p t lgt0
  = plaw lgt0 (logm0 p) (logtc p) (early_index p) (late_index p) (log10 t).
Proof. reflexivity. Qed.

Lemma log_mah_kern_before p t lgt0 :
  t < t_peak p -> log_mah_kern p t lgt0 = log_mah_noq_kern p t lgt0.
Proof.
  intros H. unfold log_mah_kern, jwhere. cbn -[log_mah_noq_kern].
  now rewrite (proj2 (Rltb_true _ _) H).
Qed.

Lemma log_mah_kern_after p t lgt0 :
  t_peak p <= t -> log_mah_kern p t lgt0 = log_mah_noq_kern p (t_peak p) lgt0.
Proof.
  intros H. unfold log_mah_kern, jwhere. cbn -[log_mah_noq_kern].
  now rewrite (proj2 (Rltb_false _ _) H).
Qed.

(** The time at which the kernel is effectively evaluated. *)
Lemma log_mah_kern_min p t lgt0 :
  log_mah_kern p t lgt0 = log_mah_noq_kern p (Rmin t (t_peak p)) lgt0.
Proof.
  destruct (Rlt_le_dec t (t_peak p)).
  - rewrite log_mah_kern_before by auto. now rewrite Rmin_left by lra.
  - rewrite log_mah_kern_after by auto. now rewrite Rmin_right by lra.
Qed.

Lemma dmhdt_noq_grad_R p t lgt0 :
  0 < t ->
  dmhdt_noq_grad_kern_scalar p t lgt0
  = mah_noq_kern p t lgt0 *
    (dplaw lgt0 (logtc p) (early_index p) (late_index p) (log10 t) / t).
Proof.
  intros Ht. pose proof ln10_pos as HL.
  unfold dmhdt_noq_grad_kern_scalar, grad, mah_noq_kern, log_mah_noq_kern,
    rolling_plaw_vs_t, rolling_plaw_vs_logt, power_law_index_vs_logt, sigmoid, MAH_K, dplaw.
  cbn -[Rdiv Rminus logistic log10 pow10 ln].
  set (s := logistic (35 / 10 * (log10 t - logtc p))).
  field. lra.
Qed.

Lemma is_derive_mah_noq p t lgt0 :
  0 < t ->
  is_derive (fun t => mah_noq_kern p t lgt0) t (dmhdt_noq_grad_kern_scalar p t lgt0).
Proof.
  intros Ht. rewrite dmhdt_noq_grad_R by auto. pose proof ln10_pos as HL.
  change (is_derive (fun t => pow10 (plaw lgt0 (logm0 p) (logtc p) (early_index p)
    (late_index p) (log10 t))) t (mah_noq_kern p t lgt0 *
    (dplaw lgt0 (logtc p) (early_index p) (late_index p) (log10 t) / t))).
  set (g := plaw lgt0 (logm0 p) (logtc p) (early_index p) (late_index p)).
  set (dg := dplaw lgt0 (logtc p) (early_index p) (late_index p)).
  assert (H1 : is_derive (fun t => g (log10 t)) t (/ (t * ln 10) * dg (log10 t))).
  { apply (is_derive_comp g log10).
    - apply is_derive_plaw.
    - now apply is_derive_log10. }
  assert (H2 : is_derive (fun t => pow10 (g (log10 t))) t
     ((/ (t * ln 10) * dg (log10 t)) * (pow10 (g (log10 t)) * ln 10))).
  { apply (is_derive_comp pow10 (fun t => g (log10 t))).
    - apply is_derive_pow10.
    - exact H1. }
  match type of H2 with is_derive _ _ ?a => match goal with |- is_derive _ _ ?b =>
    replace b with a; [exact H2|] end end.
  change (mah_noq_kern p t lgt0) with (pow10 (g (log10 t))).
  field. split; lra.
Qed.

Lemma rate_R p lgt0 t : rate p lgt0 t = dmhdt_kern_scalar p t lgt0.
Proof. reflexivity. Qed.

Lemma mass_R p lgt0 t : mass p lgt0 t = pow10 (log_mah_kern p t lgt0).
Proof. reflexivity. Qed.

Lemma mass_before p lgt0 t : t <= t_peak p -> mass p lgt0 t = mah_noq_kern p t lgt0.
Proof.
  intros H. rewrite mass_R, log_mah_kern_min, Rmin_left by auto. reflexivity.
Qed.

Lemma mass_after p lgt0 t :
  t_peak p <= t -> mass p lgt0 t = mah_noq_kern p (t_peak p) lgt0.
Proof.
  intros H. rewrite mass_R, log_mah_kern_min, Rmin_right by auto. reflexivity.
Qed.

Lemma rate_before p lgt0 t :
  t <= t_peak p -> rate p lgt0 t = dmhdt_noq_grad_kern_scalar p t lgt0 / 1000000000.
Proof.
  intros H. rewrite rate_R. unfold dmhdt_kern_scalar, jwhere.
  cbn -[dmhdt_noq_kern_scalar]. now rewrite (proj2 (Rltb_false _ _) H).
Qed.

Lemma rate_after p lgt0 t : t_peak p < t -> rate p lgt0 t = 0.
Proof.
  intros H. rewrite rate_R. unfold dmhdt_kern_scalar, jwhere.
  cbn -[dmhdt_noq_kern_scalar]. now rewrite (proj2 (Rltb_true _ _) H).
Qed.

(** ** Array calls are pointwise *)

Lemma where_list_map {B} (c : B -> bool) (f g : B -> R) l :
  where_list (map c l) (map f l) (map g l) = map (fun x => jwhere (c x) (f x) (g x)) l.
Proof. induction l; cbn; congruence. Qed.

Lemma where_list_map_gen {A B} (c : B -> bool) (f g : B -> A) l :
  where_list (map c l) (map f l) (map g l) = map (fun x => jwhere (c x) (f x) (g x)) l.
Proof. induction l; cbn; congruence. Qed.

Lemma log_mah_kern_arr_map {A} {N : Num A} (p : DiffmahParams A) ts lgt0 :
  log_mah_kern_arr p ts lgt0 = map (fun t => log_mah_kern p t lgt0) ts.
Proof. unfold log_mah_kern_arr. now rewrite where_list_map_gen. Qed.

Lemma dmhdt_kern_map {A} {N : Num A} (p : DiffmahParams A) ts lgt0 :
  dmhdt_kern p ts lgt0 = map (fun t => dmhdt_kern_scalar p t lgt0) ts.
Proof. unfold dmhdt_kern, dmhdt_noq_kern. now rewrite where_list_map_gen. Qed.

Lemma mah_singlehalo_map p ts lgt0 :
  mah_singlehalo p ts lgt0 = (map (rate p lgt0) ts, map (fun t => logmh_at_t_obs p t lgt0) ts).
Proof.
  unfold mah_singlehalo, diffmah_kern. rewrite log_mah_kern_arr_map, dmhdt_kern_map. reflexivity.
Qed.

(** ** Monotone growth *)

Lemma idx_pos_legal p x : legal p ->
  0 < idx (logtc p) (early_index p) (late_index p) x.
Proof.
  intros (_ & _ & H3 & H4 & _).
  pose proof (idx_between (logtc p) (early_index p) (late_index p) ltac:(lra) x). lra.
Qed.

Lemma noq_increasing p lgt0 t1 t2 :
  legal p -> 0 < t1 -> t1 < t2 -> 35 / 10 * (log10 t2 - lgt0) <= 11 / 9 ->
  log_mah_noq_kern p t1 lgt0 < log_mah_noq_kern p t2 lgt0.
Proof.
  intros (_ & _ & H3 & H4 & _) H0 H12 Hd. rewrite !log_mah_noq_R.
  apply plaw_increasing; try lra. now apply log10_lt.
Qed.

Lemma tpeak_cond p lgt0 :
  legal p -> t_peak p <= pow10 (22 / 63) * pow10 lgt0 ->
  35 / 10 * (log10 (t_peak p) - lgt0) <= 11 / 9.
Proof.
  intros (_ & _ & _ & _ & H5) H. rewrite <- pow10_plus in H.
  apply log10_le_pow10 in H; lra.
Qed.

Lemma logmh_monotone p lgt0 t1 t2 :
  legal p -> t_peak p <= pow10 (22 / 63) * pow10 lgt0 -> 0 < t1 -> t1 <= t2 ->
  logmh_at_t_obs p t1 lgt0 <= logmh_at_t_obs p t2 lgt0
  /\ (t1 < t2 -> t1 < t_peak p -> logmh_at_t_obs p t1 lgt0 < logmh_at_t_obs p t2 lgt0).
Proof.
  intros HL Htp H0 H12. unfold logmh_at_t_obs. rewrite !log_mah_kern_min.
  pose proof (tpeak_cond _ _ HL Htp) as HC.
  assert (Htp0 : 5 / 100 < t_peak p) by (destruct HL; tauto).
  assert (HS : Rmin t1 (t_peak p) < Rmin t2 (t_peak p) ->
     log_mah_noq_kern p (Rmin t1 (t_peak p)) lgt0 < log_mah_noq_kern p (Rmin t2 (t_peak p)) lgt0).
  { intros HM. apply noq_increasing; auto.
    - apply Rmin_pos; lra.
    - pose proof (Rmin_r t2 (t_peak p)) as HR.
      assert (log10 (Rmin t2 (t_peak p)) <= log10 (t_peak p)).
      { apply log10_le; auto. apply Rmin_pos; lra. }
      lra. }
  assert (HM : Rmin t1 (t_peak p) <= Rmin t2 (t_peak p)).
  { unfold Rmin; repeat destruct (Rle_dec _ _); lra. }
  split.
  - destruct HM as [HM|HM]; [left; auto | right; now rewrite HM].
  - intros Hlt Hp. apply HS. unfold Rmin; repeat destruct (Rle_dec _ _); lra.
Qed.

Lemma rate_pos p lgt0 t :
  legal p -> t_peak p <= pow10 (22 / 63) * pow10 lgt0 -> 0 < t -> t <= t_peak p ->
  0 < rate p lgt0 t.
Proof.
  intros HL Htp H0 Ht. rewrite rate_before, dmhdt_noq_grad_R by auto.
  pose proof (tpeak_cond _ _ HL Htp) as HC.
  destruct HL as (_ & _ & H3 & H4 & H5).
  apply Rdiv_lt_0_compat; [|lra].
  apply Rmult_lt_0_compat; [apply pow10_pos|].
  apply Rdiv_lt_0_compat; auto.
  apply dplaw_pos; try lra.
  assert (log10 t <= log10 (t_peak p)) by (apply log10_le; auto). lra.
Qed.

(** ** Derivative of the mass history *)

Lemma locally_lt (x a : R) : x < a -> locally x (fun y => y < a).
Proof.
  intros H. exists (mkposreal (a - x) ltac:(lra)). intros y Hy. cbn in Hy.
  unfold ball in Hy; cbn in Hy. unfold AbsRing_ball, abs, minus, plus, opp in Hy; cbn in Hy.
  apply Rabs_def2 in Hy. lra.
Qed.

Lemma locally_gt (x a : R) : a < x -> locally x (fun y => a < y).
Proof.
  intros H. exists (mkposreal (x - a) ltac:(lra)). intros y Hy. cbn in Hy.
  unfold ball in Hy; cbn in Hy. unfold AbsRing_ball, abs, minus, plus, opp in Hy; cbn in Hy.
  apply Rabs_def2 in Hy. lra.
Qed.

Lemma rate_is_derivative p lgt0 t :
  0 < t -> t <> t_peak p -> is_derive (mass p lgt0) t (1000000000 * rate p lgt0 t).
Proof.
  intros H0 Hne. destruct (Rlt_le_dec t (t_peak p)) as [Hlt|Hge].
  - rewrite rate_before by lra.
    replace (1000000000 * (dmhdt_noq_grad_kern_scalar p t lgt0 / 1000000000))
      with (dmhdt_noq_grad_kern_scalar p t lgt0) by field.
    apply (is_derive_ext_loc (fun t => mah_noq_kern p t lgt0)).
    + apply (filter_imp (fun y => y < t_peak p)).
      * intros y Hy. symmetry. apply mass_before; lra.
      * now apply locally_lt.
    + now apply is_derive_mah_noq.
  - assert (t_peak p < t) by lra. rewrite rate_after by auto.
    rewrite Rmult_0_r.
    apply (is_derive_ext_loc (fun _ => mah_noq_kern p (t_peak p) lgt0)).
    + apply (filter_imp (fun y => t_peak p < y)).
      * intros y Hy. symmetry. apply mass_after; lra.
      * now apply locally_gt.
    + exact (@is_derive_const R_AbsRing R_NormedModule _ _).
Qed.

Lemma rate_left_derivative p lgt0 :
  0 < t_peak p -> left_derivative (mass p lgt0) (t_peak p) (1000000000 * rate p lgt0 (t_peak p)).
Proof.
  intros H0 eps Heps. rewrite rate_before by lra.
  replace (1000000000 * (dmhdt_noq_grad_kern_scalar p (t_peak p) lgt0 / 1000000000))
      with (dmhdt_noq_grad_kern_scalar p (t_peak p) lgt0) by field.
  pose proof (is_derive_mah_noq p (t_peak p) lgt0 H0) as HD.
  apply is_derive_Reals in HD. destruct (HD eps Heps) as [delta Hd].
  exists delta. split; [apply cond_pos|].
  intros h Hh. rewrite !mass_before by lra.
  apply Hd; [lra|]. rewrite Rabs_left; lra.
Qed.

Lemma mass_right_derivative p lgt0 :
  right_derivative (mass p lgt0) (t_peak p) 0.
Proof.
  intros eps Heps. exists 1. split; [lra|]. intros h Hh.
  rewrite !mass_after by lra.
  replace ((mah_noq_kern p (t_peak p) lgt0 - mah_noq_kern p (t_peak p) lgt0) / h - 0) with 0
    by (field; lra).
  now rewrite Rabs_R0.
Qed.

(** ** Mass is the integral of the rate *)

Lemma is_derive_dplaw_continuous x0 tc e l x : continuous (dplaw x0 tc e l) x.
Proof.
  apply (ex_derive_continuous (dplaw x0 tc e l)). unfold dplaw. cbv zeta.
  auto_derive.
  repeat split; exists (logistic (35 / 10 * (x - tc)) * (1 - logistic (35 / 10 * (x - tc))));
    apply is_derive_logistic.
Qed.

Lemma noq_grad_continuous p lgt0 t :
  0 < t -> continuous (fun t => dmhdt_noq_grad_kern_scalar p t lgt0) t.
Proof.
  intros Ht.
  apply (continuous_ext_loc _ (fun t => mah_noq_kern p t lgt0 *
    (dplaw lgt0 (logtc p) (early_index p) (late_index p) (log10 t) / t))).
  - apply (filter_imp (fun y => 0 < y)).
    + intros y Hy. symmetry. now apply dmhdt_noq_grad_R.
    + now apply locally_gt.
  - apply (continuous_mult (fun t => mah_noq_kern p t lgt0)).
    + apply (ex_derive_continuous (fun t => mah_noq_kern p t lgt0)).
      eexists. now apply is_derive_mah_noq.
    + apply (continuous_mult (fun t => dplaw lgt0 (logtc p) (early_index p) (late_index p) (log10 t))
        (fun t => / t)).
      * apply (continuous_comp log10).
        -- apply (ex_derive_continuous log10). eexists. now apply is_derive_log10.
        -- apply is_derive_dplaw_continuous.
      * apply (ex_derive_continuous (fun t => / t)). auto_derive. lra.
Qed.

Lemma integral_before p lgt0 t1 t2 :
  0 < t1 -> t1 <= t2 -> t2 <= t_peak p ->
  is_RInt (fun t => rate p lgt0 t * 1000000000) t1 t2 (mass p lgt0 t2 - mass p lgt0 t1).
Proof.
  intros H1 H12 H2.
  apply (is_RInt_ext (fun t => dmhdt_noq_grad_kern_scalar p t lgt0)).
  - intros x Hx. rewrite Rmin_left, Rmax_right in Hx by lra. rewrite rate_before by lra.
    match goal with |- @eq _ ?a ?b => change (@eq R a b) end. field.
  - rewrite !mass_before by lra.
    apply (is_RInt_derive (fun t => mah_noq_kern p t lgt0)).
    + intros x Hx. rewrite Rmin_left in Hx by lra. apply is_derive_mah_noq; lra.
    + intros x Hx. rewrite Rmin_left in Hx by lra. apply noq_grad_continuous; lra.
Qed.

Lemma integral_after p lgt0 t1 t2 :
  t_peak p <= t1 -> t1 <= t2 ->
  is_RInt (fun t => rate p lgt0 t * 1000000000) t1 t2 (mass p lgt0 t2 - mass p lgt0 t1).
Proof.
  intros H1 H12. rewrite !mass_after by lra.
  replace (mah_noq_kern p (t_peak p) lgt0 - mah_noq_kern p (t_peak p) lgt0)
    with (scal (t2 - t1) 0).
  - apply (is_RInt_ext (fun _ => 0)).
    + intros x Hx. rewrite Rmin_left, Rmax_right in Hx by lra.
      rewrite rate_after by lra. now rewrite Rmult_0_l.
    + apply @is_RInt_const.
  - unfold scal; cbn. unfold mult; cbn. ring.
Qed.

Lemma mass_is_integral p lgt0 t1 t2 :
  0 < t_peak p -> 0 < t1 -> t1 <= t2 ->
  is_RInt (fun t => rate p lgt0 t * 1000000000) t1 t2 (mass p lgt0 t2 - mass p lgt0 t1).
Proof.
  intros Hp H1 H12.
  destruct (Rle_lt_dec t2 (t_peak p)) as [H2|H2].
  - now apply integral_before.
  - destruct (Rle_lt_dec (t_peak p) t1) as [H3|H3].
    + now apply integral_after.
    + replace (mass p lgt0 t2 - mass p lgt0 t1) with
        (plus (mass p lgt0 (t_peak p) - mass p lgt0 t1)
              (mass p lgt0 t2 - mass p lgt0 (t_peak p)))
        by (unfold plus; cbn; ring).
      apply (@is_RInt_Chasles R_NormedModule _ _ (t_peak p)).
      * apply integral_before; lra.
      * apply integral_after; lra.
Qed.
