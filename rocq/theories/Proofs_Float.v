(** Order properties of the kernels in any ordered arithmetic. *)

From Coq Require Import Reals ZArith Lra List.
From Flocq Require Import Core.
From Verif Require Import Model_Num Model_Kernels Model_Float Spec_Float.
Local Open Scope R_scope.

Section Ordered.
  Variable F : arith.
  Hypothesis HF : ordered_arith F.

  Local Notation rd := (rnd F).

  Lemma rd_mono : forall x y, x <= y -> rd x <= rd y.
  Proof. exact (oa_mono F HF). Qed.

  Lemma rd_0 : rd 0 = 0. Proof. exact (oa_zero F HF). Qed.

  Lemma rd_nonneg : forall x, 0 <= x -> 0 <= rd x.
  Proof. intros x H. rewrite <- rd_0. now apply rd_mono. Qed.

  Lemma rd_nonpos : forall x, x <= 0 -> rd x <= 0.
  Proof. intros x H. rewrite <- rd_0. now apply rd_mono. Qed.

  Lemma rd_le : forall x y, machine F y -> x <= y -> rd x <= y.
  Proof. intros x y Hy H. rewrite <- Hy. now apply rd_mono. Qed.

  Lemma rd_ge : forall x y, machine F y -> y <= x -> y <= rd x.
  Proof. intros x y Hy H. rewrite <- Hy. now apply rd_mono. Qed.

  (** The sigmoid ramp [lo + (hi-lo)*s]. *)
  Definition ramp (lo hi s : R) : R := rd (lo + rd (rd (hi - lo) * s)).

  Lemma fl_sigmoid : forall x x0 k lo hi,
    @sigmoid R (Num_fl F) x x0 k lo hi
    = ramp lo hi (lib_logistic F (rd (k * rd (x - x0)))).
  Proof. reflexivity. Qed.

  (** Falling ramps: [hi <= lo]. *)
  Lemma ramp_down_antitone : forall lo hi s1 s2, hi <= lo -> s1 <= s2 ->
    ramp lo hi s2 <= ramp lo hi s1.
  Proof.
    intros lo hi s1 s2 H H12. unfold ramp. apply rd_mono.
    assert (Hd : rd (hi - lo) <= 0) by (apply rd_nonpos; lra).
    assert (rd (rd (hi - lo) * s2) <= rd (rd (hi - lo) * s1)) by (apply rd_mono; nra).
    lra.
  Qed.

  Lemma ramp_down_le : forall lo hi s, machine F lo -> hi <= lo -> 0 <= s ->
    ramp lo hi s <= lo.
  Proof.
    intros lo hi s HM H Hs. unfold ramp. apply rd_le; [exact HM|].
    assert (Hd : rd (hi - lo) <= 0) by (apply rd_nonpos; lra).
    assert (rd (rd (hi - lo) * s) <= 0) by (apply rd_nonpos; nra). lra.
  Qed.

  Lemma ramp_down_nonneg : forall lo hi s, machine F lo -> 0 <= hi <= lo -> 0 <= s <= 1 ->
    0 <= ramp lo hi s.
  Proof.
    intros lo hi s HM H Hs. unfold ramp. apply rd_nonneg.
    assert (Hn : machine F (- lo)) by (apply (oa_neg F HF); exact HM).
    assert (H1 : - lo <= rd (hi - lo)) by (apply rd_ge; [exact Hn | lra]).
    assert (Hd : rd (hi - lo) <= 0) by (apply rd_nonpos; lra).
    assert (- lo <= rd (rd (hi - lo) * s)) by (apply rd_ge; [exact Hn | nra]). lra.
  Qed.

  (** Rising ramps: [lo <= hi]. *)
  Lemma ramp_up_monotone : forall lo hi s1 s2, lo <= hi -> s1 <= s2 ->
    ramp lo hi s1 <= ramp lo hi s2.
  Proof.
    intros lo hi s1 s2 H H12. unfold ramp. apply rd_mono.
    assert (Hd : 0 <= rd (hi - lo)) by (apply rd_nonneg; lra).
    assert (rd (rd (hi - lo) * s1) <= rd (rd (hi - lo) * s2)) by (apply rd_mono; nra).
    lra.
  Qed.

  Lemma ramp_up_ge : forall lo hi s, machine F lo -> lo <= hi -> 0 <= s ->
    lo <= ramp lo hi s.
  Proof.
    intros lo hi s HM H Hs. unfold ramp. apply rd_ge; [exact HM|].
    assert (Hd : 0 <= rd (hi - lo)) by (apply rd_nonneg; lra).
    assert (0 <= rd (rd (hi - lo) * s)) by (apply rd_nonneg; nra). lra.
  Qed.

  (** The power-law index along the history. *)
  Definition fl_index (p : DiffmahParams R) (lt : R) : R :=
    @power_law_index_vs_logt R (Num_fl F) lt (logtc p) (early_index p) (late_index p).

  Lemma fl_index_eq : forall p lt,
    fl_index p lt = ramp (early_index p) (late_index p)
      (lib_logistic F (rd (rd (35 / 10) * rd (lt - logtc p)))).
  Proof. reflexivity. Qed.

  Lemma mah_k_nonneg : 0 <= rd (35 / 10).
  Proof. apply rd_nonneg. lra. Qed.

  Lemma fl_index_antitone : forall p x y, late_index p <= early_index p -> x <= y ->
    fl_index p y <= fl_index p x.
  Proof.
    intros p x y H Hxy. rewrite !fl_index_eq. apply ramp_down_antitone; [exact H|].
    apply (oa_logistic_mono F HF). apply rd_mono.
    pose proof mah_k_nonneg.
    assert (rd (x - logtc p) <= rd (y - logtc p)) by (apply rd_mono; lra).
    nra.
  Qed.

  Lemma fl_index_range : forall p x,
    machine F (early_index p) -> 0 <= late_index p <= early_index p ->
    0 <= fl_index p x <= early_index p.
  Proof.
    intros p x HM H. rewrite fl_index_eq.
    destruct (oa_logistic F HF (rd (rd (35 / 10) * rd (x - logtc p)))) as [Hs _].
    split; [now apply ramp_down_nonneg | apply ramp_down_le; [exact HM | lra | lra]].
  Qed.

  (** The history before freezing. *)
  Definition fl_noq (p : DiffmahParams R) (t lgt0 : R) : R :=
    @log_mah_noq_kern R (Num_fl F) p t lgt0.

  Lemma fl_noq_eq : forall p t lgt0,
    fl_noq p t lgt0
    = rd (rd (fl_index p (lib_log10 F t) * rd (lib_log10 F t - lgt0)) + logm0 p).
  Proof. reflexivity. Qed.

  Lemma fl_log_mah_eq : forall p t lgt0,
    fl_log_mah F p t lgt0
    = if Rltb t (t_peak p) then fl_noq p t lgt0 else fl_noq p (t_peak p) lgt0.
  Proof. reflexivity. Qed.

  Lemma fl_noq_mono : forall p lgt0 t1 t2,
    machine F (early_index p) -> 0 <= late_index p <= early_index p ->
    0 < t1 -> t1 <= t2 -> lib_log10 F t2 <= lgt0 ->
    fl_noq p t1 lgt0 <= fl_noq p t2 lgt0.
  Proof.
    intros p lgt0 t1 t2 HM HI H0 H12 HT. rewrite !fl_noq_eq. apply rd_mono.
    assert (HL : lib_log10 F t1 <= lib_log10 F t2) by (now apply (oa_log10_mono F HF)).
    pose proof (fl_index_antitone p _ _ (proj2 HI) HL) as Ha.
    pose proof (fl_index_range p (lib_log10 F t1) HM HI) as H1.
    pose proof (fl_index_range p (lib_log10 F t2) HM HI) as H2.
    assert (Hd : rd (lib_log10 F t1 - lgt0) <= rd (lib_log10 F t2 - lgt0)) by (apply rd_mono; lra).
    assert (Hn : rd (lib_log10 F t2 - lgt0) <= 0) by (apply rd_nonpos; lra).
    assert (rd (fl_index p (lib_log10 F t1) * rd (lib_log10 F t1 - lgt0))
            <= rd (fl_index p (lib_log10 F t2) * rd (lib_log10 F t2 - lgt0))).
    { apply rd_mono. nra. }
    lra.
  Qed.

  Lemma Rltb_spec : forall x y, (Rltb x y = true /\ x < y) \/ (Rltb x y = false /\ y <= x).
  Proof.
    intros x y. unfold Rltb. destruct (Rlt_dec x y); [left | right]; split; auto. lra.
  Qed.

  (** The whole history, up to today. *)
  Lemma fl_log_mah_mono : forall p lgt0 t1 t2,
    machine F (early_index p) -> 0 <= late_index p <= early_index p ->
    0 < t1 -> t1 <= t2 -> 0 < t_peak p ->
    lib_log10 F (Rmin t2 (t_peak p)) <= lgt0 ->
    fl_log_mah F p t1 lgt0 <= fl_log_mah F p t2 lgt0.
  Proof.
    intros p lgt0 t1 t2 HM HI H0 H12 HP HT. rewrite !fl_log_mah_eq.
    destruct (Rltb_spec t1 (t_peak p)) as [[-> H1] | [-> H1]];
    destruct (Rltb_spec t2 (t_peak p)) as [[-> H2] | [-> H2]].
    - apply fl_noq_mono; auto. now rewrite Rmin_left in HT by lra.
    - apply fl_noq_mono; auto; [lra|]. now rewrite Rmin_right in HT by lra.
    - lra.
    - lra.
  Qed.

  Lemma fl_frozen : forall p lgt0 t, t_peak p <= t ->
    fl_log_mah F p t lgt0 = fl_log_mah F p (t_peak p) lgt0.
  Proof.
    intros p lgt0 t H. rewrite !fl_log_mah_eq.
    destruct (Rltb_spec t (t_peak p)) as [[-> H1] | [-> H1]]; [lra|].
    destruct (Rltb_spec (t_peak p) (t_peak p)) as [[_ H2] | [-> H2]]; [lra|]. reflexivity.
  Qed.

  Lemma fl_noq_at_t0 : forall p t lgt0, machine F (logm0 p) ->
    lib_log10 F t = lgt0 -> fl_noq p t lgt0 = logm0 p.
  Proof.
    intros p t lgt0 HM HT. rewrite fl_noq_eq, HT.
    replace (lgt0 - lgt0) with 0 by ring. rewrite rd_0, Rmult_0_r, rd_0, Rplus_0_l. exact HM.
  Qed.

  Lemma fl_at_t0 : forall p t lgt0, machine F (logm0 p) ->
    lib_log10 F t = lgt0 -> t <= t_peak p -> fl_log_mah F p t lgt0 = logm0 p.
  Proof.
    intros p t lgt0 HM HT HP. rewrite fl_log_mah_eq.
    destruct (Rltb_spec t (t_peak p)) as [[-> H1] | [-> H1]].
    - now apply fl_noq_at_t0.
    - replace (t_peak p) with t by lra. now apply fl_noq_at_t0.
  Qed.

  Lemma fl_noq_below : forall p t lgt0,
    machine F (logm0 p) -> machine F (early_index p) -> 0 <= late_index p <= early_index p ->
    lib_log10 F t <= lgt0 ->
    rd (rd (early_index p * rd (lib_log10 F t - lgt0)) + logm0 p) <= fl_noq p t lgt0 <= logm0 p.
  Proof.
    intros p t lgt0 HM HE HI HT. rewrite fl_noq_eq.
    pose proof (fl_index_range p (lib_log10 F t) HE HI) as H1.
    assert (Hn : rd (lib_log10 F t - lgt0) <= 0) by (apply rd_nonpos; lra).
    split.
    - apply rd_mono.
      assert (rd (early_index p * rd (lib_log10 F t - lgt0))
              <= rd (fl_index p (lib_log10 F t) * rd (lib_log10 F t - lgt0)))
        by (apply rd_mono; nra). lra.
    - apply rd_le; [exact HM|].
      assert (rd (fl_index p (lib_log10 F t) * rd (lib_log10 F t - lgt0)) <= 0)
        by (apply rd_nonpos; nra). lra.
  Qed.

  (** ** The accretion rate. *)

  Lemma rd_mul_nonneg : forall x y, 0 <= x -> 0 <= y -> 0 <= rd (x * y).
  Proof. intros. apply rd_nonneg. nra. Qed.

  Lemma ln10_nonneg : 0 <= rd (ln 10).
  Proof.
    apply rd_nonneg. rewrite <- ln_1. left. apply ln_increasing; lra.
  Qed.

  Lemma rd_div_nonneg : forall x y, 0 <= x -> 0 <= y -> 0 <= rd (x / y).
  Proof.
    intros x y Hx Hy. apply rd_nonneg. unfold Rdiv. destruct Hy as [Hy | <-].
    - apply Rmult_le_pos; [lra|]. left. now apply Rinv_0_lt_compat.
    - rewrite Rinv_0. lra.
  Qed.

  Lemma fl_rate_noq_nonneg : forall p t lgt0,
    machine F (early_index p) -> 0 <= late_index p <= early_index p ->
    0 < t -> lib_log10 F t <= lgt0 ->
    0 <= @dmhdt_noq_kern_scalar R (Num_fl F) p t lgt0.
  Proof.
    intros p t lgt0 HM HI H0 HT.
    pose proof (fl_index_range p (lib_log10 F t) HM HI) as HX.
    rewrite fl_index_eq in HX. unfold ramp in HX.
    set (lt := lib_log10 F t) in *.
    unfold dmhdt_noq_kern_scalar, dmhdt_noq_grad_kern_scalar, grad.
    cbn [mah_noq_kern log_mah_noq_kern rolling_plaw_vs_t rolling_plaw_vs_logt
         power_law_index_vs_logt sigmoid dlift_params dlift logm0 logtc early_index
         late_index t_peak npow10 nlog10 nlogistic nadd nsub nmul ndiv nconst
         Num_Dual dpow10 dlog10 dlogistic dadd dsub dmul dconst dval dder MAH_K Num_fl].
    fold lt.
    set (s := lib_logistic F (rd (rd (35 / 10) * rd (lt - logtc p)))) in *.
    set (h := rd (late_index p - early_index p)) in *.
    destruct (oa_logistic F HF (rd (rd (35 / 10) * rd (lt - logtc p)))) as [Hs Hsm].
    fold s in Hs, Hsm.
    assert (R0 : rd 0 = 0) by exact rd_0.
    assert (R1 : rd 1 = 1) by exact (oa_one F HF).
    rewrite ?R0, ?R1, ?Rmult_0_l, ?Rmult_0_r, ?Rminus_0_r, ?R0, ?Rplus_0_l, ?Rplus_0_r.
    pose proof mah_k_nonneg as HK. pose proof ln10_nonneg as HL.
    assert (Hh : h <= 0) by (unfold h; apply rd_nonpos; lra).
    assert (Hd : rd (lt - lgt0) <= 0) by (apply rd_nonpos; lra).
    apply rd_div_nonneg; [|apply rd_nonneg; lra].
    apply rd_mul_nonneg.
    { apply rd_mul_nonneg; [apply (oa_pow10 F HF) | exact HL]. }
    set (lt' := rd (1 / rd (t * rd (ln 10)))).
    assert (Hlt' : 0 <= rd lt').
    { apply rd_nonneg. unfold lt'. apply rd_div_nonneg; [lra|].
      apply rd_mul_nonneg; lra. }
    assert (Hlt'' : 0 <= rd (rd lt')) by (now apply rd_nonneg).
    assert (H1s : 0 <= rd (1 - s)) by (apply rd_nonneg; lra).
    assert (HX0 : 0 <= rd (early_index p + rd (h * s))) by (unfold h; exact (proj1 HX)).
    rewrite ?Rmult_0_l, ?R0, ?Rplus_0_l.
    assert (HB : 0 <= rd (rd (s * rd (1 - s)) * rd (rd (rd (35 / 10) * rd lt')))).
    { apply rd_mul_nonneg; [apply rd_mul_nonneg; lra|].
      apply rd_nonneg. now apply rd_mul_nonneg. }
    set (b := rd (rd (s * rd (1 - s)) * rd (rd (rd (35 / 10) * rd lt')))) in *.
    set (c := rd (rd (rd (h * b)))).
    assert (HC : c <= 0).
    { unfold c. apply rd_nonpos, rd_nonpos, rd_nonpos. nra. }
    apply rd_nonneg. apply rd_nonneg.
    apply Rplus_le_le_0_compat.
    - apply rd_nonneg. nra.
    - now apply rd_mul_nonneg.
  Qed.

  Lemma fl_rate_nonneg : forall p t lgt0,
    machine F (early_index p) -> 0 <= late_index p <= early_index p ->
    0 < t -> lib_log10 F t <= lgt0 ->
    0 <= @dmhdt_kern_scalar R (Num_fl F) p t lgt0.
  Proof.
    intros p t lgt0 HM HI H0 HT. unfold dmhdt_kern_scalar, jwhere. cbn [nltb Num_fl nconst].
    destruct (Rltb (t_peak p) t); [rewrite rd_0; lra | now apply fl_rate_noq_nonneg].
  Qed.

  Lemma fl_rate_after : forall p t lgt0, t_peak p < t ->
    @dmhdt_kern_scalar R (Num_fl F) p t lgt0 = 0.
  Proof.
    intros p t lgt0 H. unfold dmhdt_kern_scalar, jwhere. cbn [nltb Num_fl nconst].
    destruct (Rltb_spec (t_peak p) t) as [[-> _] | [_ H1]]; [exact rd_0 | lra].
  Qed.
End Ordered.
